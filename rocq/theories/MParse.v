(** MParse.v -- model of message-immutable.go.  Definitions only. *)
From Verif Require Import Base MPriority MHelpers MTime MSData MMessage MTransport.

(** message-immutable.go:15-19 *)
Record immutable := { i_buf : bytes; i_index : list nat; i_text : Z }.

(** the zero MessageImmutable (message-immutable.go:141: the named result) *)
Definition zero_immutable : immutable := {| i_buf := []; i_index := []; i_text := 0 |}.

(** message-immutable.go:22-34 searchNextSep with a one byte separator *)
Definition search_next_sep (data : bytes) (sep : N) : nat + perr :=
  match index_byte sep data with
  | None => inr ErrPosNotFound
  | Some O => inr ErrPos0
  | Some (S p) => inl (S p)
  end.

(** message-immutable.go:247-255 *)
Definition dispatch_error (mainErr : option perr) (err : perr) : option perr :=
  match mainErr with None => Some err | Some e => Some e end.

(** message-immutable.go:257-285 parseReturn: returnMsg, rest, mainErr (the data result is not
    used by the caller after the call) *)
Definition parse_return (msg : immutable) (t : option transport) (atEOF : bool) (oData : bytes) (oRest : slice)
  : res (immutable * slice * option perr) :=
  match t with
  | None => Val (msg, oRest, None)
  | Some t =>
      match oRest with
      | Some r => Val (msg, Some r, None)
      | None =>
          do tail <- go_from_z oData (i_text msg);
          match suffix_strip t tail atEOF with
          | (None, None, None) => Val (zero_immutable, None, None)
          | (data, rest, mainErr) =>
              let data := match data with Some d => d | None => [] end in
              let e := (i_text msg + Z.of_nat (length data))%Z in
              let msg :=
                if (e <? Z.of_nat (length (i_buf msg)))%Z
                then {| i_buf := firstn (Z.to_nat e) (i_buf msg); i_index := i_index msg; i_text := i_text msg |}
                else msg in
              Val (msg, rest, mainErr)
          end
      end
  end.

(** message-immutable.go:159-171: the six header words.  Returns the indexes (in order) and the
    new [begin], or the error of searchNextSep. *)
Fixpoint header_loop (parts : nat) (data : bytes) (begin : nat) (idx : list nat) : res ((list nat * nat) + perr) :=
  match parts with
  | O => Val (inl (idx, begin))
  | S p =>
      if (length data =? 0)%nat then Val (inl (idx, begin))
      else
        do d <- go_from data begin;
        match search_next_sep d SP with
        | inr e => Val (inr e)
        | inl e => header_loop p data (begin + e + 1) (idx ++ [(begin + e)%nat])
        end
  end.

(** Outcome of the structured data loop: call parseReturn with these indexes and text, or fail. (message-immutable.go:207-244) *)
Inductive sd_out := SDReturn (idx : list nat) (text : Z) | SDFail (e : perr).

(** message-immutable.go:229 *)
Definition why_expected : bytes := bs "\\ or "" expected".

(** message-immutable.go:207-244 *)
Fixpoint sd_loop (fuel : nat) (data : bytes) (t begin : nat) (idx : list nat) : res sd_out :=
  match fuel with
  | O => NoFuel
  | S f =>
      do rest <- go_from data t;
      if (length rest =? 0)%nat then Val (SDFail ErrImpossible)
      else
        match search_next_sep rest RBR with
        | inl e =>
            do c <- go_at data (t + e - 1);
            if N.eqb c BSL then sd_loop f data (t + e + 1) begin idx
            else if N.eqb c QUO then
              let idx := idx ++ [(t + e + 1)%nat] in
              let begin := (t + e + 1)%nat in
              let t := begin in
              if (length data <=? begin)%nat then Val (SDReturn idx (-1))
              else sd_loop f data t begin idx
            else Val (SDFail (ErrParse (t + e - 1) why_expected))
        | inr ErrPosNotFound => Val (SDReturn idx (Z.of_nat begin + 1))
        | inr e => Val (SDFail e)
        end
  end.

(** message-immutable.go:174, 180 *)
Definition why_empty_field : bytes := bs "empty field expected".
(** message-immutable.go:197 *)
Definition why_empty_sd : bytes := bs "empty structured data expected".

(** message-immutable.go:153-245, after the transport prefix has been removed *)
Definition parse_body (t : option transport) (atEOF : bool) (data : bytes) (rest : slice) (mainErr : option perr)
  : res (immutable * slice * option perr) :=
  let fail e := Val (zero_immutable, rest, dispatch_error mainErr e) in
  do h <- header_loop 6 data 0 [];
  match h with
  | inr e => fail e
  | inl (idx, begin) =>
      do tail <- go_from data begin;
      if (length tail =? 0)%nat then fail (ErrParse begin why_empty_field)
      else if (length tail =? 1)%nat then
        do c <- go_at data begin;
        if negb (N.eqb c DASH) then fail (ErrParse begin why_empty_field)
        else
          parse_return {| i_buf := data; i_index := idx ++ [(begin + 2)%nat]; i_text := -1 |} t atEOF data rest
      else
        match search_next_sep tail SP with
        | inr e => fail e
        | inl e =>
            if (e =? 1)%nat then
              do c <- go_at data begin;
              if negb (N.eqb c DASH) then fail (ErrParse begin why_empty_sd)
              else
                parse_return {| i_buf := data; i_index := idx ++ [(begin + 1)%nat]; i_text := (Z.of_nat begin + 2)%Z |}
                  t atEOF data rest
            else
              do o <- sd_loop (S (length data)) data begin begin idx;
              match o with
              | SDFail e => fail e
              | SDReturn idx text =>
                  parse_return {| i_buf := data; i_index := idx; i_text := text |} t atEOF data rest
              end
        end
  end.

(** message-immutable.go:141-245 Parse *)
Definition parse (data : bytes) (t : option transport) (atEOF : bool) : res (immutable * slice * option perr) :=
  match t with
  | None => parse_body None atEOF data None None
  | Some tr =>
      do p <- prefix_strip tr data atEOF;
      match p with
      | (None, None, None) => Val (zero_immutable, None, None)
      | (d, rest, mainErr) =>
          parse_body t atEOF (match d with Some d => d | None => [] end) rest mainErr
      end
  end.

(** ** Accessors *)

(** msg.index[i] (message-immutable.go:43 and the other accessors) *)
Definition idx_at (m : immutable) (i : nat) : res nat :=
  match nth_error (i_index m) i with Some x => Val x | None => Panic end.

(** message-immutable.go:36-38 *)
Definition imm_string (m : immutable) : bytes := i_buf m.

(** message-immutable.go:41-46 *)
Definition imm_priority (m : immutable) : res Z :=
  do e <- idx_at m 0;
  do b <- go_slice (i_buf m) 0 e;
  do r <- priority_unmarshal 0 b;
  Val (fst r).

(** buffer[index[i]+1 : index[i+1]] (message-immutable.go:50-52, 59-61, 68-70, 76-78, 84-86) *)
Definition imm_field (m : immutable) (i : nat) : res bytes :=
  do b <- idx_at m i;
  do e <- idx_at m (S i);
  go_slice (i_buf m) (b + 1) e.

(** message-immutable.go:49-88 *)
Definition imm_timestamp (m : immutable) : res gotime := do b <- imm_field m 0; Val (time_parse b).
(** message-immutable.go:58-64 *)
Definition imm_hostname (m : immutable) : res bytes := do b <- imm_field m 1; Val (valid_host b).
(** message-immutable.go:67-72 *)
Definition imm_appname (m : immutable) : res bytes := do b <- imm_field m 2; Val (valid_app b).
(** message-immutable.go:75-80 *)
Definition imm_procid (m : immutable) : res bytes := do b <- imm_field m 3; Val (valid_procid b).
(** message-immutable.go:83-88 *)
Definition imm_msgid (m : immutable) : res bytes := do b <- imm_field m 4; Val (valid_msgid b).

(** message-immutable.go:105-114: one registry lookup per recorded element end.  [spare] are the
    bytes between len and cap of the message buffer; [order b] is the iteration order of the
    registry map during the lookup of the element that starts at offset [b]. *)
Fixpoint sd_elements (order : nat -> list sdid) (buf spare : bytes) (begin : nat) (ends : list nat) : res (list sdval) :=
  match ends with
  | [] => Val []
  | e :: r =>
      do el <- go_slice_cap buf spare begin e;
      do o <- registry_found (order begin) el (skipn e (buf ++ spare));
      do l <- sd_elements order buf spare e r;
      Val (match o with Some s => s :: l | None => l end)
  end.

(** message-immutable.go:91-117 *)
Definition imm_structured_data (order : nat -> list sdid) (spare : bytes) (m : immutable) : res (list sdval) :=
  if (length (i_index m) <? 5)%nat then Panic
  else
    let tail := skipn 5 (i_index m) in
    if (length tail <? 2)%nat then Val []
    else
      do i5 <- idx_at m 5;
      do dash <- (if (length tail =? 2)%nat
                  then do c <- go_at (i_buf m) (i5 + 1); Val (N.eqb c DASH) else Val false);
      if dash then Val []
      else sd_elements order (i_buf m) spare (i5 + 1) (skipn 6 (i_index m)).

(** message-immutable.go:119-126 *)
Definition imm_text (m : immutable) : res bytes :=
  if (i_text m <? 1)%Z then Val [] else go_from_z (i_buf m) (i_text m).

(** message-immutable.go:129-131 Writable *)
Definition imm_writable (order : nat -> list sdid) (spare : bytes) (m : immutable) : res message :=
  do p <- imm_priority m; do ts <- imm_timestamp m; do h <- imm_hostname m; do a <- imm_appname m;
  do pid <- imm_procid m; do mid <- imm_msgid m; do sd <- imm_structured_data order spare m; do txt <- imm_text m;
  Val {| m_prio := p; m_time := ts; m_host := h; m_app := a; m_procid := pid; m_msgid := mid; m_sd := sd; m_text := txt |}.

(** message-immutable.go:134-138 WriteTo: the bytes handed to the writer *)
Definition imm_write_to (m : immutable) : bytes := i_buf m.
