(** MTransport.v -- model of transport.go.  Definitions only. *)
From Verif Require Import Base.

(** Errors of the package (errors.go:8-31); ParseError carries its position and message (its
    Buffer field is the data given to the parser). *)
Inductive perr :=
| ErrPos0 | ErrPosNotFound | ErrImpossible
| ErrTransportIncomplete | ErrTransportNoHeader | ErrTransportInvHeader
| ErrParse (pos : nat) (why : bytes).

(** transport.go:8-21, 37-45: the three exported transports *)
Inductive transport := TZeroEnded | TLFEnded | TRFC5425.

(** transport.go:148-150, 154-156: value of the returned slice (where append writes it is
    modelled in MSlice.v) and 160-169 *)
Definition encode (t : transport) (d : bytes) : bytes :=
  match t with
  | TZeroEnded => d ++ [NUL]
  | TLFEnded => d ++ [LF]
  | TRFC5425 => itoa (Z.of_nat (length d)) ++ [SP] ++ d
  end.

(** A []byte result that can be nil: [None] is nil. *)
Notation slice := (option bytes).

(** transport.go:75-104 *)
Definition rfc5425_prefix_strip (buffer : bytes) (atEOF : bool) : res (slice * slice * option perr) :=
  if (length buffer =? 0)%nat then Val (None, None, None)
  else if (length buffer <? 20)%nat then Val (None, None, None)
  else
    match index_byte SP buffer with
    | None => Val (None, None, Some ErrTransportNoHeader)
    | Some O => Val (None, None, Some ErrTransportNoHeader)
    | Some sepPos =>
        match atoi (firstn sepPos buffer) with
        | None => Val (None, None, Some ErrTransportInvHeader)
        | Some lenMsg =>
            let start := (sepPos + 1)%nat in
            let lenBuff := wrap64 (Z.of_nat start + lenMsg) in
            if (Z.of_nat (length buffer) <? lenBuff)%Z then
              if atEOF then
                do d <- go_from buffer start;
                Val (Some d, None, Some ErrTransportIncomplete)
              else Val (None, None, None)
            else if (lenBuff <? 0)%Z then Panic
            else
              do d <- go_slice buffer start (Z.to_nat lenBuff);
              do r <- go_from buffer (Z.to_nat lenBuff);
              Val (Some d, Some r, None)
        end
    end.

(** transport.go:60-66, 68-73, 75-104 *)
Definition prefix_strip (t : transport) (buffer : bytes) (atEOF : bool) : res (slice * slice * option perr) :=
  match t with
  | TZeroEnded => if (length buffer =? 0)%nat then Val (None, None, None) else Val (Some buffer, None, None)
  | TLFEnded => if (length buffer =? 0)%nat then Val (None, None, None) else Val (Some buffer, None, None)
  | TRFC5425 => rfc5425_prefix_strip buffer atEOF
  end.

(** transport.go:106-121, 123-137, 139-144 *)
Definition suffix_strip (t : transport) (buffer : bytes) (atEOF : bool) : slice * slice * option perr :=
  if (length buffer =? 0)%nat then (None, None, None)
  else
    match t with
    | TZeroEnded =>
        match index_byte NUL buffer with
        | Some i => (Some (firstn i buffer), Some (skipn (i + 1) buffer), None)
        | None => if atEOF then (Some buffer, None, None) else (Some buffer, None, None)
        end
    | TLFEnded =>
        match index_byte LF buffer with
        | Some i => (Some (firstn i buffer), Some (skipn (i + 1) buffer), None)
        | None => if atEOF then (Some buffer, None, Some ErrTransportIncomplete) else (Some buffer, None, None)
        end
    | TRFC5425 => (Some buffer, None, None)
    end.
