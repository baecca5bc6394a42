(** MTokMem.v -- where the bytes of a connection live: model of the read buffer of listener.go
    tokenize at the level of Go arrays and slices.  MTokenize.v is the same loop on values; here the
    arrays are explicit, so that the aliasing between the messages sent and the buffer that later
    reads fill is visible.  Definitions only. *)
From Verif Require Import Base MTransport MParse MTokenize.

(** The arrays allocated by the goroutine, in allocation order (listener.go:109,153); garbage
    collection is not modelled: an array never disappears. *)
Definition heap := list bytes.

(** A slice: array, offset, length (capacity plays no role here). (listener.go:109-154, message-immutable.go:16) *)
Record loc := { l_arr : nat; l_off : nat; l_len : nat }.

(** (no code: reading memory) *)
Definition array (h : heap) (a : nat) : bytes := nth a h [].
(** (no code: reading memory) *)
Definition contents (h : heap) (l : loc) : bytes := firstn (l_len l) (skipn (l_off l) (array h (l_arr l))).

(** Replace bytes of an array, from offset [o]. (listener.go:111, 154) *)
Definition put (a : bytes) (o : nat) (d : bytes) : bytes := firstn o a ++ d ++ skipn (o + length d) a.
(** listener.go:111, 154 *)
Fixpoint set_array (h : heap) (i : nat) (a : bytes) : heap :=
  match h, i with
  | [], _ => []
  | _ :: h', O => a :: h'
  | x :: h', S i' => x :: set_array h' i' a
  end.

(** The variables of tokenize between two reads: [buffer] is the slice from [s_off] to the end of
    array [s_arr]; [s_done] is done.  [s_log]: everything sent to the pipeline so far with the slice
    each message's buffer is (MessageImmutable.buffer, message-immutable.go:16 and 153-154). *)
Record mstate := { s_heap : heap; s_arr : nat; s_off : nat; s_done : nat; s_log : list (pair_t * loc) }.

(** listener.go:106-109: make returns a zeroed array *)
Definition mem_init : mstate :=
  {| s_heap := [repeat 0%N (Z.to_nat read_buffer)]; s_arr := 0; s_off := 0; s_done := 0; s_log := [] |}.

(** The slice of a message that Parse returned with a rest, when data is [start, start+len) of the
    array: with RFC 5425 it ends where rest begins (transport.go:103), with a delimiter it starts
    with data and the delimiter is between it and rest (transport.go:112,129 and
    message-immutable.go:257-285). *)
Definition message_loc (t : transport) (a start len : nat) (rest : bytes) (m : immutable) : loc :=
  match t with
  | TRFC5425 => {| l_arr := a; l_off := start + len - length rest - length (i_buf m); l_len := length (i_buf m) |}
  | _ => {| l_arr := a; l_off := start; l_len := length (i_buf m) |}
  end.

(** listener.go:131-146: the inner loop on slices; [data] is [start, start+len) of array [a].  rest
    is always the end of data (transport.go:103,112,129). *)
Fixpoint mem_inner (fuel : nat) (t : transport) (eof : bool) (h : heap) (a start len : nat) : list (pair_t * loc) * res nat :=
  match fuel with
  | O => ([], NoFuel)
  | S f =>
      match parse (contents h {| l_arr := a; l_off := start; l_len := len |}) (Some t) eof with
      | Panic => ([], Panic)
      | NoFuel => ([], NoFuel)
      | Val (_, None, _) => ([], Val len)
      | Val (msg, Some rest, e) =>
          let sent := ((msg, e), message_loc t a start len rest msg) in
          if (length rest =? 0)%nat then ([sent], Val 0%nat)
          else let '(more, r) := mem_inner f t eof h a (start + (len - length rest)) (length rest) in (sent :: more, r)
      end
  end.

(** listener.go:148-160 *)
Inductive mem_next := MCont | MReturn | MCrash.

(** listener.go:110-160, one turn; conn.Read wrote [chunk] at buffer[done:] *)
Definition mem_step (t : transport) (st : mstate) (chunk : bytes) (err : option read_err) : mstate * mem_next :=
  let eof := match err with Some REOF => true | _ => false end in
  if (length chunk =? 0)%nat && eof then (st, MReturn)
  else if (length chunk =? 0)%nat then (st, MCont)
  else
    let h := set_array (s_heap st) (s_arr st) (put (array (s_heap st) (s_arr st)) (s_off st + s_done st) chunk) in
    let lenRead := (length chunk + s_done st)%nat in
    let '(sent, r) := mem_inner (S lenRead) t eof h (s_arr st) (s_off st) lenRead in
    match r with
    | Val done =>
        let off := (s_off st + (lenRead - done))%nat in
        let old := {| l_arr := s_arr st; l_off := off; l_len := length (array h (s_arr st)) - off |} in
        let st' :=
          if (l_len old <? 500)%nat
          then {| s_heap := h ++ [put (repeat 0%N (Z.to_nat read_buffer)) 0 (contents h old)]; s_arr := length h; s_off := 0;
                  s_done := done; s_log := s_log st ++ sent |}
          else {| s_heap := h; s_arr := s_arr st; s_off := off; s_done := done; s_log := s_log st ++ sent |} in
        (st', if eof then MReturn else MCont)
    | _ => ({| s_heap := h; s_arr := s_arr st; s_off := s_off st; s_done := s_done st; s_log := s_log st ++ sent |}, MCrash)
    end.

(** listener.go:101-161 *)
Fixpoint mem_run (t : transport) (st : mstate) (reads : list (bytes * option read_err)) : mstate * mem_next :=
  match reads with
  | [] => (st, MCont)
  | (chunk, err) :: more =>
      match mem_step t st chunk err with
      | (st', MCont) => mem_run t st' more
      | r => r
      end
  end.
