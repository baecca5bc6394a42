(** MTokErr.v -- the slice that the Buffer field of a ParseError is (errors.go:10-14), for the errors
    that listener.go tokenize sends with its pairs, in the arrays of MTokMem.v.  Definitions only. *)
From Verif Require Import Base MTransport MParse MTokenize MTokMem.

(** message-immutable.go:144, 173, 179, 202, 243: Buffer is always the variable data of Parse, which is
    what PrefixStrip returned; with every transport data and rest are both ends of the buffer they are
    cut from, rest after data (transport.go:65, 72, 98, 103).  The slice given to Parse is
    [start, start+len) of array [a]. *)
Definition buffer_loc (t : transport) (eof : bool) (h : heap) (a start len : nat) : loc :=
  match prefix_strip t (contents h {| l_arr := a; l_off := start; l_len := len |}) eof with
  | Val (Some d, rest, _) =>
      {| l_arr := a; l_off := start + len - length (match rest with Some r => r | None => [] end) - length d; l_len := length d |}
  | _ => {| l_arr := a; l_off := start; l_len := 0 |}
  end.

(** listener.go:131-146: the pairs of one turn, each with the slice that Parse was working on *)
Fixpoint buffers_inner (fuel : nat) (t : transport) (eof : bool) (h : heap) (a start len : nat) : list (pair_t * loc) :=
  match fuel with
  | O => []
  | S f =>
      match parse (contents h {| l_arr := a; l_off := start; l_len := len |}) (Some t) eof with
      | Val (msg, Some rest, e) =>
          ((msg, e), buffer_loc t eof h a start len) ::
          (if (length rest =? 0)%nat then [] else buffers_inner f t eof h a (start + (len - length rest)) (length rest))
      | _ => []
      end
  end.

(** listener.go:110-160, one turn *)
Definition buffers_step (t : transport) (st : mstate) (chunk : bytes) (err : option read_err) : list (pair_t * loc) :=
  let eof := match err with Some REOF => true | _ => false end in
  if (length chunk =? 0)%nat then []
  else
    let h := set_array (s_heap st) (s_arr st) (put (array (s_heap st) (s_arr st)) (s_off st + s_done st) chunk) in
    let lenRead := (length chunk + s_done st)%nat in
    buffers_inner (S lenRead) t eof h (s_arr st) (s_off st) lenRead.

(** listener.go:101-161: all the pairs sent, each with the slice that Parse was working on *)
Fixpoint buffers_run (t : transport) (st : mstate) (reads : list (bytes * option read_err)) : list (pair_t * loc) :=
  match reads with
  | [] => []
  | (chunk, err) :: more =>
      buffers_step t st chunk err ++
      match mem_step t st chunk err with
      | (st', MCont) => buffers_run t st' more
      | _ => []
      end
  end.
