(** MIdent.v -- the identifiers of structured data: SDID() of the elements and the methods String,
    MarshalText, IsIANA and GetPEN of the identifiers of the packages sdata and timequality, with
    their constant methods Options, SetOptions and Default.  Definitions only. *)
From Verif Require Import Base MSData.

(** The SDID values of the packages: unknownDef (sd-unknown.go:4), tqdef (tq.go:21), genericSDID
    (sd-generic.go:4-6) wrapping any SDIDLight, given by the results of its three methods
    (structured-data.go:14-18) *)
Inductive ident := NUnknown | NTimeQuality | NGeneric (name : bytes) (iana : bool) (pen : N).

(** sd-unknown.go:17-19, tq.go:32-34, sd-generic.go:19-21 *)
Definition ident_string (i : ident) : bytes :=
  match i with
  | NUnknown => bs "unknown Structured Data"
  | NTimeQuality => bs "TimeQuality"
  | NGeneric name _ _ => name
  end.

(** sd-unknown.go:41-43, tq.go:56-58, sd-generic.go:43-45; the error is always nil *)
Definition ident_text (i : ident) : bytes :=
  match i with
  | NUnknown => bs "unknown@32473"
  | NTimeQuality => bs "timeQuality"
  | NGeneric name _ _ => ident_string (NGeneric name false 0)
  end.

(** sd-unknown.go:33-35, tq.go:48-50, sd-generic.go:35-37 *)
Definition ident_is_iana (i : ident) : bool :=
  match i with NUnknown => false | NTimeQuality => true | NGeneric _ iana _ => iana end.

(** sd-unknown.go:37-39, tq.go:52-54, sd-generic.go:39-41 *)
Definition ident_pen (i : ident) : N :=
  match i with NUnknown => 32473%N | NTimeQuality => 0%N | NGeneric _ _ pen => pen end.

(** sd-unknown.go:21-23, tq.go:36-38, sd-generic.go:23-25: the map is always empty *)
Definition ident_options (i : ident) : list (bytes * gval) := [].
(** sd-unknown.go:25-27, tq.go:40-42, sd-generic.go:27-29: the argument is not looked at *)
Definition ident_set_options (i : ident) (o : list (bytes * gval)) : ident := i.
(** sd-unknown.go:29-31, tq.go:44-46, sd-generic.go:31-33 *)
Definition ident_default (i : ident) : sdval :=
  match i with
  | NUnknown => SDUnknown [] []
  | NTimeQuality => SDTimeQuality {| tzKnown := false; isSynced := false; syncAccuracy := None |}
  | NGeneric name _ _ => SDGenericNil name
  end.

(** SDID() of an element (sd-unknown.go:85-87, tq.go:131-133, sd-generic.go:66-68).  An element of
    GenericSD knows the SDIDLight it was made from; of its methods the model of the element keeps
    String only (MSData.v), so the other two are arguments.  None: an implementation outside the
    packages. *)
Definition sd_ident (iana : bool) (pen : N) (s : sdval) : option ident :=
  match s with
  | SDUnknown _ _ => Some NUnknown
  | SDTimeQuality _ => Some NTimeQuality
  | SDGeneric id _ _ | SDGenericNil id => Some (NGeneric id iana pen)
  | SDForeign _ => None
  end.

(** The decoder behind an identifier: Found (sd-unknown.go:45-83, tq.go:60-128, sd-generic.go:47-64) *)
Definition ident_found (i : ident) (data spare : bytes) : res (option sdval) :=
  match i with
  | NUnknown => unknown_found data
  | NTimeQuality => tq_found data spare
  | NGeneric name _ _ => generic_found name data spare
  end.

(** The identifier given to Register (list.go:54-63); unknownDef is not exported and not registered *)
Definition ident_decoder (i : ident) : option sdid :=
  match i with
  | NUnknown => None
  | NTimeQuality => Some IdTimeQuality
  | NGeneric name _ _ => Some (IdGeneric name)
  end.
