(** MTesting.v -- model of sdata/exported-testing.go: the test helpers offered to authors of structured
    data.  Definitions only. *)
From Verif Require Import Base MSData.

(** sdata/exported-testing.go:10-14 Foundable: an SDID or the registry (list.go:35-47), the latter with
    the iteration order of its map *)
Inductive foundable := OfId (s : sdid) | OfRegistry (order : list sdid).
(** sdata/exported-testing.go:13 Found *)
Definition foundable_found (f : foundable) (data spare : bytes) : res (option sdval) :=
  match f with OfId s => sdid_found s data spare | OfRegistry order => registry_found order data spare end.

(** sdata/exported-testing.go:16-38, 41-64; a StructuredData argument may be nil *)
Inductive sdtest :=
| TValid (orig : bytes) (obj : option sdval) (enc : bytes)
| TGeneric (orig : bytes) (obj : option sdval)
| TInvalidMarshal (obj : option sdval) (err : option sderr)
| TInvalidUnmarshal (orig : bytes).

(** Which error DoTest returns (sdata/exported-testing.go:69, 73, 78, 82, 100, 104, 112, 120) *)
Inductive testerr := DoesNotParse | ObjectsDiffer | MarshalFails (e : sderr) | TextsDiffer | OtherError | Parses.

(** sdata/exported-testing.go:111, comparison of two interface values.  The errors of the package
    other than ErrInvalidTimeQuality are pointers to a new value each time, so a value made by the
    caller is never one of them; those of other packages have an identity. *)
Definition same_error (got want : option sderr) : bool :=
  match got, want with
  | None, None => true
  | Some EInvalidTimeQuality, Some EInvalidTimeQuality => true
  | Some (EForeign a), Some (EForeign b) => N.eqb a b
  | _, _ => false
  end.

(** reflect.DeepEqual, called by sdata/exported-testing.go:72, of two time qualities (the int behind the
    pointer is compared) *)
Definition tq_eqb (a b : tq) : bool :=
  Bool.eqb (tzKnown a) (tzKnown b) && Bool.eqb (isSynced a) (isSynced b) &&
  match syncAccuracy a, syncAccuracy b with None, None => true | Some x, Some y => Z.eqb x y | _, _ => false end.
(** the same, of two lists of parameters *)
Fixpoint pairs_eqb (a b : list (bytes * bytes)) : bool :=
  match a, b with
  | [], [] => true
  | (k, v) :: a, (k', v') :: b => bytes_eqb k k' && bytes_eqb v v' && pairs_eqb a b
  | _, _ => false
  end.
(** reflect.DeepEqual, called by sdata/exported-testing.go:72.  [deq]: DeepEqual on user values, which is arbitrary here. *)
Definition deep_equal (deq : sdval -> sdval -> bool) (a b : sdval) : bool :=
  match a, b with
  | SDTimeQuality t, SDTimeQuality u => tq_eqb t u
  | SDUnknown n l, SDUnknown m k => bytes_eqb n m && pairs_eqb l k
  | SDGenericNil i, SDGenericNil j => bytes_eqb i j && deq a b
  | SDGeneric _ _ _, SDGeneric _ _ _ | SDForeign _, SDForeign _ => deq a b
  | _, _ => false
  end.

(** sdata/exported-testing.go:66-122 DoTest; [Val None]: the nil error.  [spare]: what follows the bytes
    of []byte(val.Orig) in its array. *)
Definition do_test (uni : N -> bool) (deq : sdval -> sdval -> bool) (spare : bytes) (t : sdtest) (f : foundable) : res (option testerr) :=
  match t with
  (* exported-testing.go:66-86 *)
  | TValid orig obj enc =>
      do o <- foundable_found f orig spare;
      match o with
      | None => Val (Some DoesNotParse)
      | Some o =>
          if negb (match obj with None => false | Some x => deep_equal deq o x end) then Val (Some ObjectsDiffer) else
          do d <- sd_marshal uni o;
          match d with
          | inl e => Val (Some (MarshalFails e))
          | inr d => if negb (bytes_eqb d enc) then Val (Some TextsDiffer) else Val None
          end
      end
  (* exported-testing.go:88-107 *)
  | TGeneric orig obj =>
      match obj with
      | None => Panic
      | Some x =>
          do d <- sd_marshal uni x;
          match d with
          | inl e => Val (Some (MarshalFails e))
          | inr d => if negb (bytes_eqb d orig) then Val (Some TextsDiffer) else Val None
          end
      end
  (* exported-testing.go:109-115 *)
  | TInvalidMarshal obj err =>
      match obj with
      | None => Panic
      | Some x =>
          do d <- sd_marshal uni x;
          if negb (same_error (match d with inl e => Some e | inr _ => None end) err) then Val (Some OtherError) else Val None
      end
  (* exported-testing.go:117-123 *)
  | TInvalidUnmarshal orig =>
      do o <- foundable_found f orig spare;
      match o with Some _ => Val (Some Parses) | None => Val None end
  end.
