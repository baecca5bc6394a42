(** MTime.v -- model of the use of package time in message.go and message-immutable.go:
    Format/Parse with the layout "2006-01-02T15:04:05.999999Z07:00" (message.go:26), Parse with
    time.Stamp = "Jan _2 15:04:05", time.Date, time.Unix, Time.Add.  Definitions only.
    Standard library behaviour is that of package time of recent Go releases. *)
From Verif Require Import Base.

(** A time.Time: the instant (Unix seconds and nanoseconds) and the offset east of UTC, in
    seconds, that its location gives at that instant.  Monotonic clock readings and zone
    names are not modelled (they are not observable on the wire). *)
Record gotime := { t_sec : Z; t_nsec : Z; t_off : Z }.

(** ** Proleptic Gregorian calendar (time.Time.Date / time.Date without normalisation of months;
    days are counted from 1970-01-01). *)
Definition is_leap (y : Z) : bool :=
  ((y mod 4 =? 0) && (negb (y mod 100 =? 0) || (y mod 400 =? 0)))%Z.

(** time.daysIn *)
Definition days_in (m y : Z) : Z :=
  (if m =? 2 then (if is_leap y then 29 else 28)
   else if (m =? 4) || (m =? 6) || (m =? 9) || (m =? 11) then 30 else 31)%Z.

(** days from 1970-01-01 to y-m-d (m in 1..12, d any integer) *)
Definition days_from_civil (y m d : Z) : Z :=
  (let y' := if m <=? 2 then y - 1 else y in
   let era := y' / 400 in
   let yoe := y' - era * 400 in
   let mp := if m >? 2 then m - 3 else m + 9 in
   let doy := (153 * mp + 2) / 5 + d - 1 in
   let doe := yoe * 365 + yoe / 4 - yoe / 100 + doy in
   era * 146097 + doe - 719468)%Z.

(** the inverse: (year, month, day) of a day number *)
Definition civil_from_days (z : Z) : Z * Z * Z :=
  (let z := z + 719468 in
   let era := z / 146097 in
   let doe := z - era * 146097 in
   let yoe := (doe - doe / 1460 + doe / 36524 - doe / 146096) / 365 in
   let doy := doe - (365 * yoe + yoe / 4 - yoe / 100) in
   let mp := (5 * doy + 2) / 153 in
   let d := doy - (153 * mp + 2) / 5 + 1 in
   let m := if mp <? 10 then mp + 3 else mp - 9 in
   let y := yoe + era * 400 + (if m <=? 2 then 1 else 0) in
   (y, m, d))%Z.

(** Wall clock of a time in its own location (Time.Year, Month, Day, Hour, Minute, Second,
    Nanosecond, Zone). *)
Record civil := { c_year : Z; c_month : Z; c_day : Z; c_hour : Z; c_min : Z; c_sec : Z; c_nsec : Z; c_off : Z }.

(** message.go:60, 65 *)
Definition civil_of (t : gotime) : civil :=
  (let w := t_sec t + t_off t in
   let '(y, m, d) := civil_from_days (w / 86400) in
   let s := w mod 86400 in
   {| c_year := y; c_month := m; c_day := d; c_hour := s / 3600; c_min := s mod 3600 / 60; c_sec := s mod 60;
      c_nsec := t_nsec t; c_off := t_off t |})%Z.

(** time.Date(y, m, d, h, min, s, ns, FixedZone(off)) for in-range month and clock fields (the
    day may overflow the month, it is normalised by the day count). *)
Definition time_of_civil (c : civil) : gotime :=
  {| t_sec := (days_from_civil (c_year c) (c_month c) (c_day c) * 86400 + c_hour c * 3600 + c_min c * 60 + c_sec c - c_off c)%Z;
     t_nsec := c_nsec c; t_off := c_off c |}.

(** ** Format *)
(** time.appendInt(b, x, width) *)
Definition append_int (x : Z) (width : nat) : bytes :=
  let u := utoa (Z.to_N (Z.abs x)) in
  (if (x <? 0)%Z then [DASH] else []) ++ repeat C0 (width - length u) ++ u.

(** message.go:152 *)
Definition digit_z (z : Z) : N := (C0 + Z.to_N (z mod 10))%N.

(** time.formatNano: the first six of the nine digits of the nanoseconds *)
Definition nano_digits (n : Z) : bytes :=
  [digit_z (n / 100000000); digit_z (n / 10000000); digit_z (n / 1000000);
   digit_z (n / 100000); digit_z (n / 10000); digit_z (n / 1000)].

(** "for n > 0 && buf[n-1] == '0' { n-- }" *)
Fixpoint trim_zeros (l : bytes) : bytes :=
  match l with
  | [] => []
  | c :: r => match trim_zeros r with
              | [] => if N.eqb c C0 then [] else [c]
              | r' => c :: r'
              end
  end.

(** ".999999" *)
Definition format_frac (n : Z) : bytes :=
  match trim_zeros (nano_digits n) with
  | [] => []
  | ds => DOT :: ds
  end.

(** "Z07:00": Go divides the offset by 60 truncating towards zero. *)
Definition format_zone (off : Z) : bytes :=
  if (off =? 0)%Z then bs "Z"
  else
    let zone := Z.quot off 60 in
    (if (zone <? 0)%Z then bs "-" else bs "+") ++
    append_int (Z.abs zone / 60) 2 ++ bs ":" ++ append_int (Z.abs zone mod 60) 2.

(** message.go:152 *)
Definition format_civil (c : civil) : bytes :=
  append_int (c_year c) 4 ++ bs "-" ++ append_int (c_month c) 2 ++ bs "-" ++ append_int (c_day c) 2 ++ bs "T" ++
  append_int (c_hour c) 2 ++ bs ":" ++ append_int (c_min c) 2 ++ bs ":" ++ append_int (c_sec c) 2 ++
  format_frac (c_nsec c) ++ format_zone (c_off c).

(** t.Format(RFC5424TimeStamp), message.go:152 *)
Definition time_format (t : gotime) : bytes := format_civil (civil_of t).

(** ** Parse *)
Definition digit_val (c : N) : Z := Z.of_N (c - C0).

(** time.getnum *)
Definition getnum (s : bytes) (fixed : bool) : option (Z * bytes) :=
  match s with
  | c :: r =>
      if is_digit c then
        match r with
        | d :: r' => if is_digit d then Some ((digit_val c * 10 + digit_val d)%Z, r')
                     else if fixed then None else Some (digit_val c, r)
        | [] => if fixed then None else Some (digit_val c, r)
        end
      else None
  | [] => None
  end.

(** stdLongYear: four digits (the first is checked to be a digit, so atoi sees no sign) *)
Definition get_year (s : bytes) : option (Z * bytes) :=
  match s with
  | a :: b :: c :: d :: r =>
      if is_digit a && is_digit b && is_digit c && is_digit d
      then Some ((digit_val a * 1000 + digit_val b * 100 + digit_val c * 10 + digit_val d)%Z, r)
      else None
  | _ => None
  end.

(** a literal byte of the layout *)
Definition expect (c : N) (s : bytes) : option bytes :=
  match s with x :: r => if N.eqb x c then Some r else None | [] => None end.

(** message-immutable.go:52 *)
Fixpoint span_digits (s : bytes) : bytes * bytes :=
  match s with
  | c :: r => if is_digit c then let '(a, b) := span_digits r in (c :: a, b) else ([], s)
  | [] => ([], [])
  end.

(** value of a run of digits *)
Definition digits_to_z (ds : bytes) : Z := fold_left (fun acc c => (acc * 10 + digit_val c)%Z) ds 0%Z.

(** time.parseNanoseconds on the digits: at most nine are kept *)
Definition frac_nanos (ds : bytes) : Z :=
  let ds := firstn 9 ds in (digits_to_z ds * 10 ^ Z.of_nat (9 - length ds))%Z.

(** stdFracSecond9 (and the implicit fraction accepted after seconds): optional *)
Definition parse_frac (s : bytes) : Z * bytes :=
  match s with
  | c :: d :: _ =>
      if (N.eqb c DOT || N.eqb c 44 (* ',' *)) && is_digit d
      then let '(ds, r) := span_digits (tl s) in (frac_nanos ds, r) else (0%Z, s)
  | _ => (0%Z, s)
  end.

(** stdISO8601ColonTZ *)
Definition parse_zone (s : bytes) : option (Z * bytes) :=
  match s with
  | z :: r0 =>
      if N.eqb z 90 (* 'Z' *) then Some (0%Z, r0)
      else
        match s with
        | sg :: h1 :: h2 :: col :: m1 :: m2 :: r =>
            if negb (N.eqb col 58 (* ':' *)) then None
            else
              match getnum [h1; h2] true, getnum [m1; m2] true with
              | Some (hr, _), Some (mm, _) =>
                  if (24 <? hr)%Z || (60 <? mm)%Z then None
                  else
                    let o := ((hr * 60 + mm) * 60)%Z in
                    if N.eqb sg 43 (* '+' *) then Some (o, r)
                    else if N.eqb sg DASH then Some ((- o)%Z, r) else None
              | _, _ => None
              end
        | _ => None
        end
  | [] => None
  end.

Notation "'opt' x <- e ; k" := (match e with Some x => k | None => None end)
  (at level 200, x pattern, e at level 100, k at level 200, right associativity).

(** time.Parse(RFC5424TimeStamp, value): the wall clock fields, or an error *)
Definition parse_civil (s : bytes) : option civil :=
  opt (y, s) <- get_year s; opt s <- expect DASH s;
  opt (mo, s) <- getnum s true;
  if (mo <=? 0)%Z || (12 <? mo)%Z then None else
  opt s <- expect DASH s; opt (d, s) <- getnum s true; opt s <- expect 84 (* 'T' *) s;
  opt (h, s) <- getnum s false;
  if (24 <=? h)%Z then None else
  opt s <- expect 58 s; opt (mi, s) <- getnum s true;
  if (60 <=? mi)%Z then None else
  opt s <- expect 58 s; opt (se, s) <- getnum s true;
  if (60 <=? se)%Z then None else
  let '(ns, s) := parse_frac s in
  opt (off, s) <- parse_zone s;
  match s with
  | _ :: _ => None
  | [] => if (d <? 1)%Z || (days_in mo y <? d)%Z then None
          else Some {| c_year := y; c_month := mo; c_day := d; c_hour := h; c_min := mi; c_sec := se; c_nsec := ns; c_off := off |}
  end.

(** the zero time.Time (returned with the error by time.Parse): January 1, year 1, 00:00:00 UTC *)
Definition zero_time : gotime := {| t_sec := (-62135596800)%Z; t_nsec := 0; t_off := 0 |}.

(** ts, _ = time.Parse(RFC5424TimeStamp, s)  (message-immutable.go:52) *)
Definition time_parse (s : bytes) : gotime :=
  match parse_civil s with Some c => time_of_civil c | None => zero_time end.

(** ** time.Stamp *)
Definition month_names : list bytes :=
  [bs "jan"; bs "feb"; bs "mar"; bs "apr"; bs "may"; bs "jun"; bs "jul"; bs "aug"; bs "sep"; bs "oct"; bs "nov"; bs "dec"].

(** message.go:58 *)
Definition lower (c : N) : N := if (65 <=? c)%N && (c <=? 90)%N then (c + 32)%N else c.

(** time.lookup(shortMonthNames, val): case-insensitive (time.match only folds letters) *)
Fixpoint month_lookup (names : list bytes) (i : Z) (s : bytes) : option Z :=
  match names with
  | [] => None
  | n :: r => if bytes_eqb (map lower (firstn 3 s)) n then Some i else month_lookup r (i + 1) s
  end.

(** message.go:58 *)
Fixpoint cut_space (s : bytes) : bytes :=
  match s with c :: r => if N.eqb c SP then cut_space r else s | [] => [] end.

(** time.skip(value, " "): a space (or the end) is required, more are tolerated *)
Definition skip_space (s : bytes) : option bytes :=
  match s with
  | c :: _ => if N.eqb c SP then Some (cut_space s) else None
  | [] => Some []
  end.

(** month, day, hour, minute, second, nanosecond; the year of the result is 0, a leap year *)
Definition parse_stamp (s : bytes) : option civil :=
  opt mo <- month_lookup month_names 1 s;
  opt s <- skip_space (skipn 3 s);
  let s := match s with c :: r => if N.eqb c SP then r else s | [] => s end in
  opt (d, s) <- getnum s false;
  opt s <- skip_space s;
  opt (h, s) <- getnum s false;
  if (24 <=? h)%Z then None else
  opt s <- expect 58 s; opt (mi, s) <- getnum s true;
  if (60 <=? mi)%Z then None else
  opt s <- expect 58 s; opt (se, s) <- getnum s true;
  if (60 <=? se)%Z then None else
  let '(ns, s) := parse_frac s in
  match s with
  | _ :: _ => None
  | [] => if (d <? 1)%Z || (days_in mo 0 <? d)%Z then None
          else Some {| c_year := 0; c_month := mo; c_day := d; c_hour := h; c_min := mi; c_sec := se; c_nsec := ns; c_off := 0 |}
  end.

(** message.go:56-66  stampToTs; [now] is the wall clock read at line 57. *)
Definition stamp_to_ts (now : gotime) (stamp : bytes) : gotime :=
  let ts := match parse_stamp stamp with Some c => c | None => civil_of zero_time end in
  let nowc := civil_of now in
  let year := c_year nowc in
  let year := if (c_month nowc =? 1)%Z && (c_month ts =? 12)%Z then (year - 1)%Z else year in
  time_of_civil {| c_year := year; c_month := c_month ts; c_day := c_day ts; c_hour := c_hour ts; c_min := c_min ts;
                   c_sec := c_sec ts; c_nsec := c_nsec ts; c_off := c_off ts |}.

(** ** time.Unix and Time.Add *)
Definition unix_to_internal : Z := 62135596800%Z.

(** time.Unix(sec, nsec); [loc] gives the offset of time.Local at an instant. *)
Definition time_unix (loc : Z -> Z) (sec nsec : Z) : gotime :=
  (let '(sec, nsec) :=
     if (nsec <? 0) || (1000000000 <=? nsec) then
       let n := Z.quot nsec 1000000000 in
       let sec := wrap64 (sec + n) in
       let nsec := nsec - n * 1000000000 in
       if nsec <? 0 then (wrap64 (sec - 1), nsec + 1000000000) else (sec, nsec)
     else (sec, nsec) in
   let s := wrap64 (sec + unix_to_internal) - unix_to_internal in
   {| t_sec := s; t_nsec := nsec; t_off := loc s |})%Z.

(** message.go:85-90  epochToTs: ParseInt errors are ignored, the clamped or zero value is used *)
Definition epoch_to_ts (loc : Z -> Z) (strSec strNsec : bytes) : gotime :=
  time_unix loc (fst (parse_int strSec)) (fst (parse_int strNsec)).

(** Time.Add(d) for instants away from the int64 limits (the saturation of addSec is not
    modelled: it needs an instant more than 292 billion years away). *)
Definition time_add (loc : Z -> Z) (t : gotime) (d : Z) : gotime :=
  (let n := t_nsec t + Z.rem d 1000000000 in
   let dsec := Z.quot d 1000000000 in
   let '(dsec, n) := if 1000000000 <=? n then (dsec + 1, n - 1000000000)
                     else if n <? 0 then (dsec - 1, n + 1000000000) else (dsec, n) in
   let s := t_sec t + dsec in
   {| t_sec := s; t_nsec := n; t_off := loc s |})%Z.

(** message.go:73-78  deltaBootToTs: int64 Duration arithmetic; [loc] is the zone of bootTs. *)
Definition delta_boot_to_ts (loc : Z -> Z) (boot : gotime) (strSec strNsec : bytes) : gotime :=
  let sec := fst (parse_int strSec) in
  let nsec := fst (parse_int strNsec) in
  time_add loc boot (wrap64 (wrap64 (nsec * 1) + wrap64 (sec * 1000000000))).
