(** MHelpers.v -- model of helpers.go.  Definitions only. *)
From Verif Require Import Base.

(** helpers.go:30-36  the sanitising loop over data[0:l] (each byte is independent of the
    others, so the downward loop is a map). *)
Definition sanitize_byte (b : N) : N := if (b <? 33)%N || (126 <? b)%N then PCT else b.

(** helpers.go:19-39.  The argument is a fresh []byte(d) copy at every call site, so the
    in-place update is not visible to the caller; the function returns the new string. *)
Definition validator_generic (data : bytes) (maxlen : nat) : bytes :=
  let l := length data in
  if (l =? 0)%nat then [DASH]
  else
    let l := if (maxlen <? l)%nat then maxlen else l in
    map sanitize_byte (firstn l data).

(** helpers.go:3-17 *)
Definition valid_host (d : bytes) : bytes := validator_generic d 255.
(** helpers.go:7-9 *)
Definition valid_app (d : bytes) : bytes := validator_generic d 48.
(** helpers.go:11-13 *)
Definition valid_procid (d : bytes) : bytes := validator_generic d 128.
(** helpers.go:15-17 *)
Definition valid_msgid (d : bytes) : bytes := validator_generic d 32.
