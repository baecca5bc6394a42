(** MSData.v -- model of package sdata and sdata/timequality.  Definitions only. *)
From Verif Require Import Base MText.

(** ** tokens.go *)

(** tokens.go:16-28  the scanning loop of NextHeader: [data[0:length]] is returned as the list
    of bytes walked over; the rest starts at the space. *)
Fixpoint header_scan (ret : bytes) : option (bytes * bytes) :=
  match ret with
  | [] => None                                                       (* unexpected EOF *)
  | c :: r =>
      if (c <? SP)%N || N.eqb c EQS || N.eqb c DEL || N.eqb c RBR || N.eqb c QUO then None
      else if N.eqb c SP then Some ([], ret)
      else match header_scan r with Some (h, rest) => Some (c :: h, rest) | None => None end
  end.

(** tokens.go:8-31 *)
Definition next_header (data : bytes) : option (bytes * bytes) :=
  if (length data <? 4)%nat then None
  else match header_scan data with
       | Some ([], _) => None                                        (* unexpected space *)
       | r => r
       end.

(** tokens.go:44-51 *)
Fixpoint skip_spaces (ret : bytes) : option bytes :=
  match ret with
  | [] => None                                                       (* unexpected EOF *)
  | c :: r => if N.eqb c SP then skip_spaces r else Some ret
  end.

(** tokens.go:34-53 *)
Definition next_non_space (data : bytes) : option bytes :=
  match data with
  | [] => None
  | c :: _ => if N.eqb c SP then skip_spaces data else None
  end.

(** tokens.go:63-75  loop of NextSDName *)
Fixpoint name_scan (ret : bytes) : option (bytes * bytes) :=
  match ret with
  | [] => None
  | c :: r =>
      if (c <=? SP)%N || N.eqb c DEL || N.eqb c RBR || N.eqb c QUO then None
      else if N.eqb c EQS then Some ([], r)
      else match name_scan r with Some (h, rest) => Some (c :: h, rest) | None => None end
  end.

(** tokens.go:56-77 *)
Definition next_sd_name (data : bytes) : option (bytes * bytes) :=
  if (length data <? 4)%nat then None else name_scan data.

(** tokens.go:90-111  loop of NextSDValue (after the opening quote) *)
Fixpoint value_scan (ret : bytes) : option (bytes * bytes) :=
  match ret with
  | [] => None
  | c :: r =>
      if N.eqb c BSL then
        match r with
        | [] => None
        | d :: r' => match value_scan r' with Some (v, rest) => Some (c :: d :: v, rest) | None => None end
        end
      else if N.eqb c RBR then None
      else if N.eqb c QUO then Some ([], r)
      else match value_scan r with Some (v, rest) => Some (c :: v, rest) | None => None end
  end.

(** tokens.go:80-113 *)
Definition next_sd_value (data : bytes) : option (bytes * bytes) :=
  match data with
  | q :: r => if (length data <? 2)%nat then None
              else if negb (N.eqb q QUO) then None else value_scan r
  | [] => None
  end.

(** One turn of the parameter loops of sd-unknown.go:62-80 and tq.go:76-91. *)
Definition next_param (data : bytes) : option (bytes * bytes * bytes) :=
  match next_non_space data with
  | None => None
  | Some data =>
      match next_sd_name data with
      | None => None
      | Some (name, step1) =>
          match next_sd_value step1 with
          | None => None
          | Some (value, step2) => Some (name, value, step2)
          end
      end
  end.

(** sd-unknown.go:62-80 *)
Fixpoint params_loop (fuel : nat) (data : bytes) : res (option (list (bytes * bytes))) :=
  match data with
  | [] => Val (Some [])
  | _ =>
      match fuel with
      | O => NoFuel
      | S f =>
          match next_param data with
          | None => Val None
          | Some (k, v, rest) =>
              do o <- params_loop f rest;
              Val (option_map (fun l => (k, v) :: l) o)
          end
      end
  end.

(** ** Go values seen through reflect by the generic encoder *)

(** Errors an encoder can return (identity of the Go error value). (sdata/errors.go, structured-data-encoder.go:91-97, 156) *)
Inductive sderr :=
| EInvalidTimeQuality                (* timequality.ErrInvalidTimeQuality *)
| EUnsupportedType                   (* *sdata.UnsupportedTypeError *)
| EValueError                        (* *reflect.ValueError, recovered in encodeState.marshal *)
| EMarshaler (e : sderr)             (* *sdata.MarshalerError *)
| EForeign (id : N).                 (* error of a StructuredData outside the package *)

(** Result of Marshal5424: bytes or error; panics are [Panic]. *)
Notation mres := (sderr + bytes)%type.

(** What a call of the Marshal5424 of a StructuredData does: it returns; it panics with an error
    value that is neither a runtime.Error nor a string; it panics with anything else.  The three
    are what the recover of encodeState.marshal tells apart (structured-data-encoder.go:40-53). *)
Inductive mcall := MRet (r : mres) | MPanicErr (e : sderr) | MPanic.

(** A Go struct field as reflect.StructField shows it: name, sd5424 tag, exported? (structured-data-encoder.go:217-228) *)
Record sfield := { f_name : bytes; f_tag : bytes; f_exported : bool }.

(** Universe of Go values.  Types are represented through the values, with a flag where the
    encoder looks at a static element type before it has an element ("is a plain interface
    type").  Heterogeneous lists are allowed, a superset of the well-typed ones. (structured-data-encoder.go:106-214, 258-266) *)
Inductive gval :=
| VBasic (empty_string : bool) (printed : bytes)
    (* bool, ints, floats, string; [printed] is fmt.Sprintf("%v"); [empty_string] is
       "kind String and length 0" *)
| VPtr (target : option gval)                                   (* None = nil *)
| VSlice (elem_iface : bool) (elems : option (list gval))       (* None = nil *)
| VArray (elems : list gval)
| VMap (key_is_string elem_iface : bool) (entries : option (list (bytes * gval)))
    (* entries in the order MapKeys returns them; None = nil map *)
| VStruct (fields : list (sfield * gval))
| VIface (is_nil : bool)             (* value of a plain interface type *)
| VOther                             (* chan, func, complex, unsafe.Pointer *)
| VMar (empty nil_ptr nil_iface : bool) (result : mcall).
    (* a value whose type implements StructuredData: isEmptyValue, "kind Ptr and nil",
       "nil interface", and what its Marshal5424 does *)

(** ** structured-data.go: struct tags *)

(** strings.Split(_, ","), called by structured-data.go:47 *)
Fixpoint split_comma (s : bytes) : list bytes :=
  match s with
  | [] => [[]]
  | c :: r =>
      if N.eqb c 44 then [] :: split_comma r
      else match split_comma r with
           | [] => [[c]]
           | w :: ws => (c :: w) :: ws
           end
  end.

(** structured-data.go:45-50 parseTag *)
Definition parse_tag (tag : bytes) : bytes * list bytes :=
  match index_byte 44 (* ',' *) tag with
  | Some idx => (firstn idx tag, split_comma (skipn (idx + 1) tag))
  | None => (tag, [])
  end.

(** structured-data.go:52-63 *)
Fixpoint tag_contains (o : list bytes) (name : bytes) : bool :=
  match o with [] => false | f :: r => bytes_eqb f name || tag_contains r name end.

(** structured-data.go:71  the punctuation allowed in a tag name *)
Definition tag_punct : bytes := bs "!#$%&()*+-./:<=>?@[]^_{|}~ ".

(** strings.ContainsRune, structured-data.go:71 *)
Fixpoint mem (c : N) (l : bytes) : bool :=
  match l with [] => false | x :: r => N.eqb x c || mem c r end.

(** unicode.IsLetter, unicode.IsDigit below 128, structured-data.go:76 *)
Definition ascii_alnum (c : N) : bool :=
  ((48 <=? c) && (c <=? 57) || ((65 <=? c) && (c <=? 90)) || ((97 <=? c) && (c <=? 122)))%N.

(** structured-data.go:65-82; [uni r] is unicode.IsLetter(r) || unicode.IsDigit(r) for the
    runes above 127 (Unicode tables are not modelled). *)
Fixpoint valid_tag_loop (fuel : nat) (uni : N -> bool) (s : bytes) : bool :=
  match fuel with
  | O => true
  | S f =>
      match s with
      | [] => true
      | _ =>
          let '(r, w) := decode_rune s in
          if mem r tag_punct || (if (r <? 128)%N then ascii_alnum r else uni r)
          then valid_tag_loop f uni (skipn w s) else false
      end
  end.

(** structured-data.go:65-82 *)
Definition is_valid_tag (uni : N -> bool) (s : bytes) : bool :=
  match s with [] => false | _ => valid_tag_loop (length s) uni s end.

(** structured-data-encoder.go:242-256 *)
Definition get_name (uni : N -> bool) (f : sfield) : bytes * bool :=
  if bytes_eqb (f_tag f) (bs "-") then ([], false)
  else
    let '(tagName, opts) := parse_tag (f_tag f) in
    let mandatory := tag_contains opts (bs "mandatory") in
    (if is_valid_tag uni tagName then tagName else f_name f, mandatory).

(** ** structured-data-encoder.go *)

(** structured-data-encoder.go:65-70 *)
Fixpoint escape (data : bytes) : bytes :=
  match data with
  | [] => []
  | d :: r => if N.eqb d QUO || N.eqb d BSL || N.eqb d RBR then BSL :: d :: escape r else d :: escape r
  end.

(** structured-data-encoder.go:55-73: what PrefixedWrite appends to the buffer *)
Definition prefixed_write (prefix data : bytes) : bytes :=
  match prefix with
  | [] => data
  | _ => [SP] ++ prefix ++ [EQS; QUO] ++ escape data ++ [QUO]
  end.

(** Results of encoders: a Go panic that encodeState.marshal re-raises is [Panic]; a panic with
    an error value, which it recovers, is [Val (inl e)]. (structured-data-encoder.go:40-53) *)
Definition eres := res mres.
(** e.Write, structured-data-encoder.go:55-81 *)
Definition emit (b : bytes) : eres := Val (inr b).
(** e.error, structured-data-encoder.go:83-85 *)
Definition efail (e : sderr) : eres := Val (inl e).
(** successive statements of an encoder; a panic or an error skips the rest (structured-data-encoder.go:40-53, 83-85) *)
Definition eseq (a b : eres) : eres :=
  match a with
  | Val (inr x) => match b with Val (inr y) => Val (inr (x ++ y)) | r => r end
  | r => r
  end.

(** structured-data-encoder.go:258-266 *)
Definition is_empty_value (v : gval) : bool :=
  match v with
  | VBasic e _ => e
  | VPtr t => match t with None => true | Some _ => false end
  | VSlice _ es => match es with None | Some [] => true | Some _ => false end
  | VArray es => match es with [] => true | _ => false end
  | VMap _ _ es => match es with None | Some [] => true | Some _ => false end
  | VStruct _ => false
  | VIface n => n
  | VOther => false
  | VMar e _ _ _ => e
  end.

(** newTypeEncoder(t, false) applied to a value (structured-data-encoder.go:106-191).
    [ro]: the value was reached through an unexported field, so v.Interface() panics with a
    string, which encodeState.marshal re-raises. *)
Fixpoint enc_value (v : gval) (ro : bool) (prefix : bytes) : eres :=
  match v with
  | VMar _ nil_ptr nil_iface r =>                     (* marshalerEncoder, lines 148-160 *)
      if nil_ptr then emit []
      else if ro then Panic
      else if nil_iface then Panic                    (* nil.(StructuredData): runtime.Error *)
      else match r with
           | MRet (inl e) => efail (EMarshaler e)
           | MRet (inr b) => emit (prefixed_write prefix b)
           | MPanicErr e => efail e                   (* recovered, lines 41-49: not wrapped *)
           | MPanic => Panic
           end
  | VBasic _ printed =>                               (* encodeurFlemmard, lines 163-165 *)
      if ro then Panic else emit (prefixed_write prefix printed)
  | VPtr None => emit []                              (* newMaybeEncoder, lines 169-176 *)
  | VPtr (Some t) => enc_value t ro prefix
  | VSlice _ None => emit []                          (* newListEncoder, lines 180-191 *)
  | VSlice elem_iface (Some es) =>
      if elem_iface then Panic                        (* Type.Elem of an interface: string panic *)
      else
        (fix list_loop (es : list gval) : eres :=
           match es with
           | [] => emit []
           | x :: r => eseq (enc_value x ro prefix) (list_loop r)
           end) es
  | VArray _ => efail EValueError                     (* v.IsNil() on an array *)
  | VIface _ => Panic                                 (* line 137: Type.Elem of an interface *)
  | VMap _ _ _ => efail EUnsupportedType
  | VStruct _ => efail EUnsupportedType
  | VOther => efail EUnsupportedType
  end.

(** Go's string order (used by sort.Sort(stringValues)). (structured-data-encoder.go:25-28) *)
Fixpoint bytes_leb (a b : bytes) : bool :=
  match a, b with
  | [], _ => true
  | _ :: _, [] => false
  | x :: a', y :: b' => (x <? y)%N || (N.eqb x y && bytes_leb a' b')
  end.

(** structured-data-encoder.go:207-208 *)
Fixpoint insert_entry (e : bytes * gval) (l : list (bytes * gval)) : list (bytes * gval) :=
  match l with
  | [] => [e]
  | x :: r => if bytes_leb (fst e) (fst x) then e :: l else x :: insert_entry e r
  end.

(** sort.Sort(sv): the keys of a Go map are distinct, so the sorted order is unique and the
    algorithm is immaterial. (structured-data-encoder.go:207-208) *)
Fixpoint sort_entries (l : list (bytes * gval)) : list (bytes * gval) :=
  match l with [] => [] | e :: r => insert_entry e (sort_entries r) end.

(** structured-data-encoder.go:209-211 *)
Fixpoint enc_entries (l : list (bytes * gval)) : eres :=
  match l with
  | [] => emit []
  | (k, v) :: r => eseq (enc_value v false k) (enc_entries r)
  end.

(** structured-data-encoder.go:194-214 newMapEncoder; [header] is the String() of the SDIDLight
    implemented by the type, [None] if it does not implement it (HeaderWrite, lines 75-81). *)
Definition header_write (header : option bytes) : bytes :=
  LBR :: match header with Some h => h | None => [] end.

(** structured-data-encoder.go:194-214 *)
Definition enc_map (header : option bytes) (key_is_string elem_iface : bool)
    (entries : option (list (bytes * gval))) : eres :=
  if negb key_is_string then efail EUnsupportedType
  else if elem_iface then Panic                       (* newTypeEncoder(t.Elem(), false) *)
  else match entries with
       | None => emit []
       | Some es => eseq (emit (header_write header)) (eseq (enc_entries (sort_entries es)) (emit [RBR]))
       end.

(** structured-data-encoder.go:225-237: the field loop *)
Fixpoint enc_fields (uni : N -> bool) (l : list (sfield * gval)) : eres :=
  match l with
  | [] => emit []
  | (sf, f) :: r =>
      let '(name, mandatory) := get_name uni sf in
      if is_empty_value f || (length name =? 0)%nat then
        if mandatory then Panic else enc_fields uni r
      else eseq (enc_value f (negb (f_exported sf)) name) (enc_fields uni r)
  end.

(** structured-data-encoder.go:216-240 newStructEncoder *)
Definition enc_struct (uni : N -> bool) (header : option bytes) (fields : list (sfield * gval)) : eres :=
  eseq (emit (header_write header)) (eseq (enc_fields uni fields) (emit [RBR])).

(** newTypeEncoder(t, true) applied to the root value (lines 87-89, 106-124).
    [ptr_mar]: the pointer type to the (non struct, map, pointer) root type implements
    StructuredData while the type itself does not; the selected encoder then asserts an
    interface the value does not have: runtime.Error. *)
Definition enc_root (uni : N -> bool) (header : option bytes) (ptr_mar : bool) (v : gval) : eres :=
  match v with
  | VMar _ nil_ptr nil_iface r =>
      if nil_ptr then emit []
      else if nil_iface then Panic
      else match r with
           | MRet (inl e) => efail (EMarshaler e)
           | MRet (inr b) => emit (prefixed_write [] b)
           | MPanicErr e => efail e
           | MPanic => Panic
           end
  | VStruct fs => enc_struct uni header fs
  | VMap ks ei es => enc_map header ks ei es
  | VPtr _ => efail EUnsupportedType
  | _ => if ptr_mar then Panic else efail EUnsupportedType
  end.

(** ** timequality/tq.go *)
Record tq := { tzKnown : bool; isSynced : bool; syncAccuracy : option Z }.

(** tq.go:136-138 *)
Definition tq_is_valid (t : tq) : bool :=
  negb ((negb (tzKnown t) && isSynced t)
        || (negb (isSynced t) && match syncAccuracy t with Some _ => true | None => false end)).

(** tq.go:141-176.  The buffer capacity is 13 + ... + int(math.Floor(math.Log(float64(a))+1)): for
    a <= 0 the float is -Inf or NaN, whose conversion to int is the most negative int on amd64,
    and make() panics.  For a > 0 the capacity is positive and does not matter. *)
Definition tq_marshal (t : tq) : eres :=
  if negb (tq_is_valid t) then efail EInvalidTimeQuality
  else
    match syncAccuracy t with
    | Some a =>
        if (a <=? 0)%Z then Panic
        else emit (bs "[timeQuality" ++ (if tzKnown t then bs " tzKnown=""1""" else [])
                   ++ (if isSynced t then bs " isSynced=""1""" else [])
                   ++ bs " syncAccuracy=""" ++ itoa a ++ [QUO] ++ [RBR])
    | None =>
        emit (bs "[timeQuality" ++ (if tzKnown t then bs " tzKnown=""1""" else [])
              ++ (if isSynced t then bs " isSynced=""1""" else []) ++ [RBR])
    end.

(** ** Structured data values (structured-data.go:26-31) *)
Inductive sdval :=
| SDUnknown (name : bytes) (params : list (bytes * bytes))     (* sd-unknown.go:6-12 *)
| SDTimeQuality (t : tq)
| SDGeneric (id : bytes) (ptr_mar : bool) (v : gval)           (* sd-generic.go:15-17; [id] is String() *)
| SDGenericNil (id : bytes)                                     (* genericSD with a nil Interface *)
| SDForeign (result : mcall).                                   (* any other implementation *)

(** sd-unknown.go:89-99 *)
Fixpoint params_bytes (l : list (bytes * bytes)) : bytes :=
  match l with
  | [] => []
  | (k, v) :: r => bs " " ++ k ++ [EQS; QUO] ++ v ++ [QUO] ++ params_bytes r
  end.
(** sd-unknown.go:89-99 *)
Definition unknown_marshal (name : bytes) (params : list (bytes * bytes)) : bytes :=
  bs "[" ++ name ++ params_bytes params ++ bs "]".

(** Marshal5424 of a StructuredData; sd-generic.go:70-77 for the generic ones (on error the
    bytes are dropped; reflect.ValueOf(nil).Type() panics with a *reflect.ValueError). *)
Definition sd_marshal (uni : N -> bool) (s : sdval) : eres :=
  match s with
  | SDUnknown name params => emit (unknown_marshal name params)
  | SDTimeQuality t => tq_marshal t
  | SDGeneric id pm v => enc_root uni (Some id) pm v
  | SDGenericNil _ => efail EValueError
  | SDForeign r => match r with MRet r => Val r | MPanicErr _ | MPanic => Panic end    (* nothing recovers it *)
  end.

(** ** list.go *)

(** list.go:92-99: the first loop of List.Marshal5424, collecting the encodings *)
Fixpoint marshal_all (uni : N -> bool) (l : list sdval) : res (sderr + list bytes) :=
  match l with
  | [] => Val (inr [])
  | s :: r =>
      match sd_marshal uni s with
      | Val (inr t) =>
          match marshal_all uni r with
          | Val (inr ts) => Val (inr (t :: ts))
          | x => x
          end
      | Val (inl e) => Val (inl e)
      | Panic => Panic
      | NoFuel => NoFuel
      end
  end.

(** list.go:85-107 *)
Definition list_marshal (uni : N -> bool) (l : list sdval) : eres :=
  match l with
  | [] => emit [DASH]
  | _ =>
      match marshal_all uni l with
      | Val (inr ts) => emit (concat ts)
      | Val (inl e) => efail e
      | Panic => Panic
      | NoFuel => NoFuel
      end
  end.

(** ** Found *)

(** data[0] != '[' || data[len(data)-1] != ']' (sd-unknown.go:46, tq.go:61, sd-generic.go:48):
    Val None = not an element, Val (Some inner) otherwise; an empty slice panics. *)
Definition bracketed (data : bytes) : res (option bytes) :=
  do c <- go_at data 0;
  if negb (N.eqb c LBR) then Val None
  else
    do d <- go_at data (length data - 1);
    if negb (N.eqb d RBR) then Val None
    else do inner <- go_slice data 1 (length data - 1); Val (Some inner).

(** sd-unknown.go:45-83 *)
Definition unknown_found (data : bytes) : res (option sdval) :=
  do b <- bracketed data;
  match b with
  | None => Val None
  | Some data =>
      match next_header data with
      | None => Val None
      | Some (header, data) =>
          do ps <- params_loop (length data) data;
          Val (option_map (SDUnknown header) ps)
      end
  end.

(** tq.go:93-120: the switch on the parameter name *)
Definition tq_param (t : tq) (name value : bytes) : option tq :=
  if bytes_eqb name (bs "tzKnown") then
    if bytes_eqb value (bs "0") then Some {| tzKnown := false; isSynced := isSynced t; syncAccuracy := syncAccuracy t |}
    else if bytes_eqb value (bs "1") then Some {| tzKnown := true; isSynced := isSynced t; syncAccuracy := syncAccuracy t |}
    else None
  else if bytes_eqb name (bs "isSynced") then
    if bytes_eqb value (bs "0") then Some {| tzKnown := tzKnown t; isSynced := false; syncAccuracy := syncAccuracy t |}
    else if bytes_eqb value (bs "1") then Some {| tzKnown := tzKnown t; isSynced := true; syncAccuracy := syncAccuracy t |}
    else None
  else if bytes_eqb name (bs "syncAccuracy") then
    match atoi value with
    | None => None
    | Some v => Some {| tzKnown := tzKnown t; isSynced := isSynced t; syncAccuracy := Some v |}
    end
  else None.

(** tq.go:76-121 *)
Fixpoint tq_loop (fuel : nat) (t : tq) (data : bytes) : res (option tq) :=
  match data with
  | [] => Val (Some t)
  | _ =>
      match fuel with
      | O => NoFuel
      | S f =>
          match next_param data with
          | None => Val None
          | Some (k, v, rest) =>
              match tq_param t k v with
              | None => Val None
              | Some t => tq_loop f t rest
              end
          end
      end
  end.

(** tq.go:74 *)
Definition tq_zero : tq := {| tzKnown := false; isSynced := false; syncAccuracy := None |}.

(** tq.go:60-128.  [spare] are the bytes between len(data) and cap(data) of the argument: the
    expression data[0:11] (line 66) is checked against the capacity, not the length. *)
Definition tq_found (data spare : bytes) : res (option sdval) :=
  do b <- bracketed data;
  match b with
  | None => Val None
  | Some inner =>
      do h <- go_slice_cap inner (RBR :: spare) 0 11;
      if negb (bytes_eqb h (bs "timeQuality")) then Val None
      else
        do data <- go_from inner 11;
        match data with
        | [] => Val (Some (SDTimeQuality tq_zero))
        | _ =>
            do o <- tq_loop (length data) tq_zero data;
            match o with
            | None => Val None
            | Some t => if tq_is_valid t then Val (Some (SDTimeQuality t)) else Val None
            end
        end
  end.

(** sd-generic.go:47-64 *)
Definition generic_found (id : bytes) (data spare : bytes) : res (option sdval) :=
  do b <- bracketed data;
  match b with
  | None => Val None
  | Some inner =>
      do h <- go_slice_cap inner (RBR :: spare) 0 (length id);
      if negb (bytes_eqb h id) then Val None
      else
        do data <- go_from inner (length id);
        match data with
        | [] => Val (Some (SDGenericNil id))
        | _ => Val None
        end
  end.

(** Structured data identifiers (structured-data.go:21-25). *)
Inductive sdid :=
| IdTimeQuality
| IdGeneric (id : bytes)
| IdForeign (name : bytes) (found : bytes -> option (option sdval)).
    (* any other implementation; the outer None: its Found panics *)

(** sd-unknown.go:17-19, sd-generic.go:19-21, tq.go:32-34 *)
Definition sdid_string (s : sdid) : bytes :=
  match s with
  | IdTimeQuality => bs "TimeQuality"                          (* tq.go:32-34 *)
  | IdGeneric id => id
  | IdForeign n _ => n
  end.

(** sd-unknown.go:45-83, sd-generic.go:47-64, tq.go:60-128 *)
Definition sdid_found (s : sdid) (data spare : bytes) : res (option sdval) :=
  match s with
  | IdTimeQuality => tq_found data spare
  | IdGeneric id => generic_found id data spare
  | IdForeign _ f => match f data with Some o => Val o | None => Panic end
  end.

(** list.go:35-46  registry.Found; [order] is the iteration order of the map. *)
Fixpoint registry_found (order : list sdid) (data spare : bytes) : res (option sdval) :=
  match order with
  | [] => unknown_found data
  | s :: r =>
      do o <- sdid_found s data spare;
      match o with
      | Some sd => Val (Some sd)
      | None => registry_found r data spare
      end
  end.

(** The registry: association list name -> decoder, at most one per name (list.go:11-14). *)
Definition registry := list (bytes * sdid).

(** list.go:59, 72 *)
Fixpoint reg_lookup (r : registry) (k : bytes) : option sdid :=
  match r with
  | [] => None
  | (k', s) :: q => if bytes_eqb k' k then Some s else reg_lookup q k
  end.

(** list.go:54-63  Register: returns its argument, the registry keeps the first one *)
Definition register (r : registry) (s : sdid) : registry * sdid :=
  (match reg_lookup r (sdid_string s) with
   | Some _ => r
   | None => (sdid_string s, s) :: r
   end, s).

(** list.go:66-76 *)
Fixpoint register_group (r : registry) (l : list sdid) : registry :=
  match l with
  | [] => r
  | s :: q => register_group (match reg_lookup r (sdid_string s) with
                              | Some _ => r
                              | None => (sdid_string s, s) :: r
                              end) q
  end.
