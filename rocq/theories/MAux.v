(** MAux.v -- model of the printing and writing helpers and of MarshalSD / UnmarshalSD.  Definitions only. *)
From Verif Require Import Base MPriority MSData MMessage MTransport MParse.

(** An io.Writer given one slice: the count and the error it returns (io.Writer's contract is stated
    where it is used) (used by message-immutable.go:135) *)
Definition writer := bytes -> nat * option bytes.

(** message-immutable.go:134-138 MessageImmutable.WriteTo: one Write of the buffer; the conversion
    int64(in) is exact *)
Definition imm_write_to_w (w : writer) (m : immutable) : Z * option bytes :=
  let '(n, err) := w (i_buf m) in (Z.of_nat n, err).

(** sdata/list.go:109-113 List.String: the error is dropped, string(nil) is "" *)
Definition list_string (uni : N -> bool) (l : list sdval) : res bytes :=
  match list_marshal uni l with
  | Val (inr b) => Val b
  | Val (inl _) => Val []
  | Panic => Panic
  | NoFuel => NoFuel
  end.

(** sdata/structured-data-encoder.go:31-38 MarshalSD of a value ([header], [ptr_mar] as in
    [enc_root]): the empty slice when marshal fails.  [None]: MarshalSD(nil), for which
    reflect.ValueOf(nil).Type() panics with a *reflect.ValueError, recovered as an error. *)
Definition marshal_sd (uni : N -> bool) (v : option (option bytes * bool * gval)) : res bytes :=
  match v with
  | None => Val []
  | Some (header, ptr_mar, g) =>
      match enc_root uni header ptr_mar g with
      | Val (inr b) => Val b
      | Val (inl _) => Val []
      | Panic => Panic
      | NoFuel => NoFuel
      end
  end.

(** The argument of UnmarshalSD as reflect sees it: nil, a pointer (nil or to a value [x] of the
    caller), or another kind (structured-data-decoder.go:17-18) *)
Inductive target (X : Type) := TNil | TPtrNil | TPtr (x : X) | TOther (x : X).
Arguments TNil {X}. Arguments TPtrNil {X}. Arguments TPtr {X}. Arguments TOther {X}.

(** sdata/structured-data-decoder.go:14-36 UnmarshalSD: the error (true: *InvalidUnmarshalError) and
    the target afterwards; unmarshal (line 25) does nothing *)
Definition unmarshal_sd {X : Type} (data : bytes) (v : target X) : bool * target X :=
  match v with
  | TPtr x => (false, TPtr x)
  | _ => (true, v)
  end.
