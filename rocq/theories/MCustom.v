(** MCustom.v -- Parse and a connection of a Receiver with any implementation of the Transport interface
    (transport.go:23-35), for instance one written by the user.  MParse.v and MTokenize.v have the same
    code with the three transports of the package; PropCustom.v proves that they are instances.
    Simplification: the methods are functions of their arguments (no state of their own); what they
    return is arbitrary, and they may panic.  Definitions only. *)
From Verif Require Import Base MTransport MParse MTokenize.

(** an error: of the package (errors.go) or of the user's methods *)
Inductive cerr := CPkg (e : perr) | CUser (n : nat).

(** transport.go:23-35: the methods Encode, PrefixStrip and SuffixStrip *)
Record ctransport := {
  c_encode : bytes -> bytes;
  c_prefix : bytes -> bool -> res (slice * slice * option cerr);
  c_suffix : bytes -> bool -> res (slice * slice * option cerr) }.

(** message-immutable.go:247-255 *)
Definition cdispatch (mainErr : option cerr) (err : perr) : option cerr :=
  match mainErr with None => Some (CPkg err) | Some e => Some e end.

(** message-immutable.go:257-285 parseReturn *)
Definition cparse_return (msg : immutable) (t : option ctransport) (atEOF : bool) (oData : bytes) (oRest : slice)
  : res (immutable * slice * option cerr) :=
  match t with
  | None => Val (msg, oRest, None)
  | Some t =>
      match oRest with
      | Some r => Val (msg, Some r, None)
      | None =>
          do tail <- go_from_z oData (i_text msg);
          do s <- c_suffix t tail atEOF;
          match s with
          | (None, None, None) => Val (zero_immutable, None, None)
          | (data, rest, mainErr) =>
              let data := match data with Some d => d | None => [] end in
              let e := (i_text msg + Z.of_nat (length data))%Z in
              let msg :=
                if (e <? Z.of_nat (length (i_buf msg)))%Z
                then {| i_buf := firstn (Z.to_nat e) (i_buf msg); i_index := i_index msg; i_text := i_text msg |}
                else msg in
              Val (msg, rest, mainErr)
          end
      end
  end.

(** message-immutable.go:153-245, after PrefixStrip *)
Definition cparse_body (t : option ctransport) (atEOF : bool) (data : bytes) (rest : slice) (mainErr : option cerr)
  : res (immutable * slice * option cerr) :=
  let fail e := Val (zero_immutable, rest, cdispatch mainErr e) in
  do h <- header_loop 6 data 0 [];
  match h with
  | inr e => fail e
  | inl (idx, begin) =>
      do tail <- go_from data begin;
      if (length tail =? 0)%nat then fail (ErrParse begin why_empty_field)
      else if (length tail =? 1)%nat then
        do c <- go_at data begin;
        if negb (N.eqb c DASH) then fail (ErrParse begin why_empty_field)
        else cparse_return {| i_buf := data; i_index := idx ++ [(begin + 2)%nat]; i_text := -1 |} t atEOF data rest
      else
        match search_next_sep tail SP with
        | inr e => fail e
        | inl e =>
            if (e =? 1)%nat then
              do c <- go_at data begin;
              if negb (N.eqb c DASH) then fail (ErrParse begin why_empty_sd)
              else cparse_return {| i_buf := data; i_index := idx ++ [(begin + 1)%nat]; i_text := (Z.of_nat begin + 2)%Z |} t atEOF data rest
            else
              do o <- sd_loop (S (length data)) data begin begin idx;
              match o with
              | SDFail e => fail e
              | SDReturn idx text => cparse_return {| i_buf := data; i_index := idx; i_text := text |} t atEOF data rest
              end
        end
  end.

(** message-immutable.go:141-245 Parse; [None]: the nil Transport *)
Definition cparse (data : bytes) (t : option ctransport) (atEOF : bool) : res (immutable * slice * option cerr) :=
  match t with
  | None => cparse_body None atEOF data None None
  | Some tr =>
      do p <- c_prefix tr data atEOF;
      match p with
      | (None, None, None) => Val (zero_immutable, None, None)
      | (d, rest, mainErr) => cparse_body t atEOF (match d with Some d => d | None => [] end) rest mainErr
      end
  end.

(** listener.go:131-146: the inner loop; it need not end: NoFuel when [fuel] turns are not enough *)
Fixpoint ctok_inner (fuel : nat) (t : option ctransport) (eof : bool) (data : bytes) : list (immutable * option cerr) * res bytes :=
  match fuel with
  | O => ([], NoFuel)
  | S f =>
      match cparse data t eof with
      | Panic => ([], Panic)
      | NoFuel => ([], NoFuel)
      | Val (_, None, _) => ([], Val data)
      | Val (msg, Some rest, e) =>
          if (length rest =? 0)%nat then ([(msg, e)], Val rest)
          else let '(sent, r) := ctok_inner f t eof rest in ((msg, e) :: sent, r)
      end
  end.

(** What one turn leads to: as in MTokenize.v, or the inner loop does not end within its fuel
    (listener.go:110-161) *)
Inductive ctok_next := CCont (st : tstate) | CReturn | CCrash | CBusy.
(** One turn: the pairs sent to the pipeline, the errors sent to chanErr (listener.go:119-142) *)
Record ctok_out := { co_sent : list (immutable * option cerr); co_errs : list nat; co_next : ctok_next }.

(** listener.go:110-161: one turn of the outer loop.  The bytes kept for the next turn are the last
    len(data) bytes of the buffer (listener.go:148-149: buffer = buffer[lenRead-done:]), whatever [data]
    contains; a slice bound below zero panics. *)
Definition ctok_step (fuel : nat) (t : option ctransport) (st : tstate) (chunk : bytes) (err : option read_err) : ctok_out :=
  let eof := match err with Some REOF => true | _ => false end in
  let errs := match err with Some (ROther e) => [e] | _ => [] end in
  if (length chunk =? 0)%nat && eof then {| co_sent := []; co_errs := errs; co_next := CReturn |}
  else if (length chunk =? 0)%nat then {| co_sent := []; co_errs := errs; co_next := CCont st |}
  else
    let data := t_pending st ++ chunk in
    let lenRead := length data in
    let '(sent, r) := ctok_inner fuel t eof data in
    {| co_sent := sent; co_errs := errs;
       co_next :=
         match r with
         | Val d =>
             let done := length d in
             if (lenRead <? done)%nat then CCrash
             else
               let buflen := (t_buflen st - Z.of_nat (lenRead - done))%Z in
               let buflen := if (buflen <? 500)%Z then read_buffer else buflen in
               if eof then CReturn else CCont {| t_pending := skipn (lenRead - done) data; t_buflen := buflen |}
         | Panic => CCrash
         | NoFuel => CBusy
         end |}.

(** listener.go:101-161 for the successive results of conn.Read *)
Fixpoint ctok_run (fuel : nat) (t : option ctransport) (st : tstate) (reads : list (bytes * option read_err)) : ctok_out :=
  match reads with
  | [] => {| co_sent := []; co_errs := []; co_next := CCont st |}
  | (chunk, err) :: more =>
      let o := ctok_step fuel t st chunk err in
      match co_next o with
      | CCont st' =>
          let o' := ctok_run fuel t st' more in
          {| co_sent := co_sent o ++ co_sent o'; co_errs := co_errs o ++ co_errs o'; co_next := co_next o' |}
      | _ => o
      end
  end.
