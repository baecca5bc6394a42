(** MAnyReader.v -- a connection of a Receiver whose DataReader is any implementation of the interface
    (listener.go:24-31), for instance one written by the user: Read may write what it likes in the slice
    it is given and return any count and any error, whether they agree or not.  Same arrays and slices
    as MTokMem.v.  Simplification: Read does not keep the slice after it returned (io.Reader forbids
    it).  Definitions only. *)
From Verif Require Import Base MTransport MParse MTokenize MTokMem.

(** One call of Read (listener.go:111): the bytes it writes from the start of the slice (it cannot write
    beyond its end: what exceeds is ignored; a byte it skips is one it writes back), the count and the
    error it returns. *)
Record rresult := { rr_wrote : bytes; rr_count : Z; rr_err : option read_err }.

(** listener.go:111: memory after the call; the slice is buffer[done:] *)
Definition read_into (st : mstate) (r : rresult) : mstate :=
  let a := array (s_heap st) (s_arr st) in
  let from := (s_off st + s_done st)%nat in
  {| s_heap := set_array (s_heap st) (s_arr st) (put a from (firstn (length a - from) (rr_wrote r)));
     s_arr := s_arr st; s_off := s_off st; s_done := s_done st; s_log := s_log st |}.

(** listener.go:112-160, the rest of the turn: the new state, the errors sent to chanErr (119-121) and what
    follows; [size] is readBuffer (45, 153).  buffer[0:lenRead] (130) panics when lenRead is below zero or
    above cap(buffer), which is len(buffer) (109, 149, 153).  lenRead += done (129) is computed without
    wrapping around: a count close to the largest int panics at 130 in both cases. *)
Definition decode_turn (size : nat) (t : transport) (st : mstate) (r : rresult) : mstate * list nat * mem_next :=
  let eof := match rr_err r with Some REOF => true | _ => false end in
  let errs := match rr_err r with Some (ROther e) => [e] | _ => [] end in
  if (rr_count r =? 0)%Z && eof then (st, errs, MReturn)
  else if (rr_count r =? 0)%Z then (st, errs, MCont)
  else
    let h := s_heap st in
    let lenRead := (rr_count r + Z.of_nat (s_done st))%Z in
    if (lenRead <? 0)%Z || (Z.of_nat (length (array h (s_arr st)) - s_off st) <? lenRead)%Z then (st, errs, MCrash)
    else
      let lenRead := Z.to_nat lenRead in
      let '(sent, res) := mem_inner (S lenRead) t eof h (s_arr st) (s_off st) lenRead in
      match res with
      | Val done =>
          let off := (s_off st + (lenRead - done))%nat in
          let old := {| l_arr := s_arr st; l_off := off; l_len := length (array h (s_arr st)) - off |} in
          let st' :=
            if (l_len old <? 500)%nat
            then {| s_heap := h ++ [put (repeat 0%N size) 0 (contents h old)]; s_arr := length h; s_off := 0;
                    s_done := done; s_log := s_log st ++ sent |}
            else {| s_heap := h; s_arr := s_arr st; s_off := off; s_done := done; s_log := s_log st ++ sent |} in
          (st', errs, if eof then MReturn else MCont)
      | _ => ({| s_heap := h; s_arr := s_arr st; s_off := s_off st; s_done := s_done st; s_log := s_log st ++ sent |}, errs, MCrash)
      end.

(** listener.go:110-160, one turn *)
Definition any_step (t : transport) (st : mstate) (r : rresult) : mstate * list nat * mem_next :=
  decode_turn (Z.to_nat read_buffer) t (read_into st r) r.

(** listener.go:101-161 for the successive results of Read *)
Fixpoint any_run (t : transport) (st : mstate) (reads : list rresult) : mstate * list nat * mem_next :=
  match reads with
  | [] => (st, [], MCont)
  | r :: more =>
      match any_step t st r with
      | (st', errs, MCont) => let '(st'', errs', nx) := any_run t st' more in (st'', errs ++ errs', nx)
      | x => x
      end
  end.
