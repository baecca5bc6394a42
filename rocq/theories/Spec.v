(** Spec.v -- the small specification vocabulary used in property statements.  It depends on
    the standard library only (and on the byte/result types of Base.v), not on the model. *)
From Verif Require Import Base.

(** The decimal numeral of [n], without leading zero, as Coq's standard library prints it. *)
Definition decimal (n : N) : bytes := uint_bytes (N.to_uint n).

(** Value of a list of ASCII digits read in base ten. *)
Definition decimal_value (ds : bytes) : Z :=
  fold_left (fun acc c => (acc * 10 + (Z.of_N c - 48))%Z) ds 0%Z.

Definition all_digits (ds : bytes) : Prop := forall c, In c ds -> (48 <= c <= 57)%N.

(** A printable ASCII byte other than space: RFC 5424 PRINTUSASCII. *)
Definition printusascii (c : N) : Prop := (33 <= c <= 126)%N.

(** A header word of at most [n] bytes. *)
Definition header_word (n : nat) (w : bytes) : Prop :=
  w <> [] /\ (length w <= n)%nat /\ forall c, In c w -> printusascii c.

(** [w] is a non-empty run without space. *)
Definition word (w : bytes) : Prop := w <> [] /\ ~ In SP w.

(** The RFC 5424 names (section 6.2.1 order; facilities 12..15 have no name in this package). *)
Definition severity_names : list bytes :=
  [bs "emerg"; bs "alert"; bs "crit"; bs "err"; bs "warning"; bs "notice"; bs "info"; bs "debug"].
Definition facility_numbers : list (bytes * Z) :=
  [(bs "kern", 0); (bs "user", 1); (bs "mail", 2); (bs "daemon", 3); (bs "auth", 4);
   (bs "syslog", 5); (bs "lpr", 6); (bs "news", 7); (bs "uucp", 8); (bs "cron", 9);
   (bs "authpriv", 10); (bs "ftp", 11); (bs "local0", 16); (bs "local1", 17); (bs "local2", 18);
   (bs "local3", 19); (bs "local4", 20); (bs "local5", 21); (bs "local6", 22); (bs "local7", 23)]%Z.

(** [name] is the name of severity number [s] / facility number [f]. *)
Definition severity_named (name : bytes) (s : Z) : Prop :=
  (0 <= s < 8)%Z /\ nth_error severity_names (Z.to_nat s) = Some name.
Definition facility_named (name : bytes) (f : Z) : Prop := In (name, f) facility_numbers.

(** [a] is a suffix / prefix of [b]. *)
Definition suffix_of (a b : bytes) : Prop := exists p, b = p ++ a.
Definition prefix_of (a b : bytes) : Prop := exists s, b = a ++ s.

(** UTF-8 encodings of the Unicode white space characters (Go's unicode.IsSpace:
    U+0009..U+000D, U+0020, U+0085, U+00A0, U+1680, U+2000..U+200A, U+2028, U+2029, U+202F,
    U+205F, U+3000). *)
Definition white_space_chars : list bytes :=
  [ [9]; [10]; [11]; [12]; [13]; [32]; [194; 133]; [194; 160]; [225; 154; 128];
    [226; 128; 128]; [226; 128; 129]; [226; 128; 130]; [226; 128; 131]; [226; 128; 132];
    [226; 128; 133]; [226; 128; 134]; [226; 128; 135]; [226; 128; 136]; [226; 128; 137];
    [226; 128; 138]; [226; 128; 168]; [226; 128; 169]; [226; 128; 175]; [226; 129; 159];
    [227; 128; 128] ]%N.

(** [s] ends with a white space character / is made of white space characters only. *)
Definition ends_with_ws (s : bytes) : Prop := exists w, In w white_space_chars /\ suffix_of w s.
Definition all_ws (s : bytes) : Prop :=
  exists ws : list bytes, Forall (fun w => In w white_space_chars) ws /\ s = concat ws.

(** [t] is [s] after removing white space characters from its end until it ends with none. *)
Definition trimmed (s t : bytes) : Prop := exists w, s = t ++ w /\ all_ws w /\ ~ ends_with_ws t.

(** [output] is the header field [input] made valid for a field of at most [limit] bytes. *)
Definition sanitised (limit : nat) (input output : bytes) : Prop :=
  header_word limit output /\
  (input = [] -> output = bs "-") /\
  (input <> [] -> length output = Nat.min limit (length input) /\
     forall i b, (i < length output)%nat -> nth_error input i = Some b ->
       (printusascii b -> nth_error output i = Some b) /\
       (~ printusascii b -> nth_error output i = Some 37%N (* '%' *))).

(** Structured data tokens (RFC 5424, 6.3): SD-ID and PARAM-NAME bytes, and PARAM-VALUE text as it
    appears between the quotes: a quote or a bracket occurs only after a backslash. *)
Definition sd_name_byte (c : N) : Prop := (32 < c)%N /\ c <> DEL /\ c <> RBR /\ c <> QUO /\ c <> EQS.
Definition sd_name (n : bytes) : Prop := forall c, In c n -> sd_name_byte c.

Inductive well_escaped : bytes -> Prop :=
| WE_nil : well_escaped []
| WE_plain : forall c v, c <> BSL -> c <> RBR -> c <> QUO -> well_escaped v -> well_escaped (c :: v)
| WE_pair : forall c v, well_escaped v -> well_escaped (BSL :: c :: v).

(** Removing one level of backslash escaping. *)
Fixpoint unescape (v : bytes) : bytes :=
  match v with
  | [] => []
  | c :: r => if N.eqb c BSL then match r with d :: r' => d :: unescape r' | [] => [] end else c :: unescape r
  end.

(** Adding one level: a backslash before each quote, backslash and closing bracket, and nothing else. *)
Definition escaped (v : bytes) : bytes :=
  flat_map (fun c => if N.eqb c QUO || N.eqb c BSL || N.eqb c RBR then [BSL; c] else [c]) v.

(** [n] spaces, a name, '=', and a quoted value. *)
Definition param_text (p : nat * bytes * bytes) : bytes :=
  let '(n, k, v) := p in repeat SP n ++ k ++ bs "=""" ++ v ++ bs """".

(** A structured data element with at least one parameter, as the package writes it (and as
    RFC 5424 6.3 defines it, up to the character set of names). *)
Definition sd_element (e : bytes) : Prop :=
  exists (name : bytes) (ps : list (bytes * bytes)),
    e = bs "[" ++ name ++ concat (map (fun p => param_text (1%nat, fst p, snd p)) ps) ++ bs "]" /\
    name <> [] /\ sd_name name /\ ps <> [] /\
    Forall (fun p => sd_name (fst p) /\ well_escaped (snd p)) ps.

(** Each ']' of [b] is immediately preceded by a backslash in [b]. *)
Definition bracket_safe (b : bytes) : Prop := forall x y, b = x ++ RBR :: y -> exists x', x = x' ++ [BSL].

(** ... and [b] does not end with ']'. *)
Definition text_safe (b : bytes) : Prop := bracket_safe b /\ ~ exists x, b = x ++ [RBR].

(** w1 SP w2 SP ... wn SP *)
Definition join (ws : list bytes) : bytes := concat (map (fun w => w ++ [SP]) ws).

(** What a purely syntactic scanner takes for one structured data element: some text in which each
    ']' follows a backslash, then a quote and a bracket. *)
Definition scan_element (e : bytes) : Prop := exists body, e = body ++ [QUO; RBR] /\ bracket_safe body.

(** There is a space, and the first one is neither the first nor the second byte. *)
Definition late_space (t : bytes) : Prop := exists x y, t = x ++ SP :: y /\ ~ In SP x /\ (2 <= length x)%nat.

(** How a message without framing is cut: six words, the structured data elements, and what is left:
    "-" or "- text" when there is no element to look for, otherwise nothing or a separator and a text. *)
Definition scanned (data : bytes) (ws els : list bytes) (tl : bytes) : Prop :=
  length ws = 6%nat /\ Forall word ws /\ data = join ws ++ concat els ++ tl /\ Forall scan_element els /\
  ((els = [] /\ (tl = bs "-" \/ exists text, tl = bs "- " ++ text)) \/
   (late_space (concat els ++ tl) /\ ((tl = [] /\ els <> []) \/ (tl <> [] /\ text_safe tl)))).

(** A parameter as it appears on the wire; a list of parameters the decoder accepts (it refuses a
    last parameter that is the bare [=""]). *)
Definition param_ok (p : bytes * bytes) : Prop := sd_name (fst p) /\ well_escaped (snd p).
Definition last_ok (l : list (bytes * bytes)) : Prop := l <> [] -> last l ([], []) <> ([], []).
Definition unknown_ok (name : bytes) (ps : list (bytes * bytes)) : Prop :=
  name <> [] /\ sd_name name /\ ps <> [] /\ Forall param_ok ps /\ last_ok ps.

(** [h] is the 64-bit decimal integer [n]: an optional sign and at least one digit *)
Definition int64_text (h : bytes) (n : Z) : Prop :=
  exists ds : bytes, ds <> [] /\ all_digits ds /\ (- 2 ^ 63 <= n < 2 ^ 63)%Z /\
    (((h = ds \/ h = bs "+" ++ ds) /\ n = decimal_value ds) \/ (h = bs "-" ++ ds /\ n = (- decimal_value ds)%Z)).
