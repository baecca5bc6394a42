(** MPriority.v -- model of priority.go.  Definitions only. *)
From Verif Require Import Base.

(** priority.go:8  type Priority int.  A mathematical integer; every operation of the file
    is on values far from the int64 limits or masks them, so no wrap is written except the
    explicit byte conversions of Marshal5424. *)
Notation priority := Z (only parsing).

(** priority.go:10-11 *)
Definition severity_mask : Z := 7.      (* 0x07 *)
Definition facility_mask : Z := 248.    (* 0xf8 *)

(** priority.go:14-23 (iota) *)
Definition LogEMERG : Z := 0.
Definition LogALERT : Z := 1.
Definition LogCRIT : Z := 2.
Definition LogERR : Z := 3.
Definition LogWARNING : Z := 4.
Definition LogNOTICE : Z := 5.
Definition LogINFO : Z := 6.
Definition LogDEBUG : Z := 7.

(** priority.go:26-51 (iota << 3, four unused values) *)
Definition LogKERN : Z := Z.shiftl 0 3.
Definition LogUSER : Z := Z.shiftl 1 3.
Definition LogMAIL : Z := Z.shiftl 2 3.
Definition LogDAEMON : Z := Z.shiftl 3 3.
Definition LogAUTH : Z := Z.shiftl 4 3.
Definition LogSYSLOG : Z := Z.shiftl 5 3.
Definition LogLPR : Z := Z.shiftl 6 3.
Definition LogNEWS : Z := Z.shiftl 7 3.
Definition LogUUCP : Z := Z.shiftl 8 3.
Definition LogCRON : Z := Z.shiftl 9 3.
Definition LogAUTHPRIV : Z := Z.shiftl 10 3.
Definition LogFTP : Z := Z.shiftl 11 3.
Definition LogLOCAL0 : Z := Z.shiftl 16 3.
Definition LogLOCAL1 : Z := Z.shiftl 17 3.
Definition LogLOCAL2 : Z := Z.shiftl 18 3.
Definition LogLOCAL3 : Z := Z.shiftl 19 3.
Definition LogLOCAL4 : Z := Z.shiftl 20 3.
Definition LogLOCAL5 : Z := Z.shiftl 21 3.
Definition LogLOCAL6 : Z := Z.shiftl 22 3.
Definition LogLOCAL7 : Z := Z.shiftl 23 3.

(** priority.go:53-74  var facility = map[string]Priority *)
Definition facility_map : list (bytes * Z) :=
  [ (bs "kern", LogKERN); (bs "user", LogUSER); (bs "mail", LogMAIL); (bs "daemon", LogDAEMON);
    (bs "auth", LogAUTH); (bs "syslog", LogSYSLOG); (bs "lpr", LogLPR); (bs "news", LogNEWS);
    (bs "uucp", LogUUCP); (bs "cron", LogCRON); (bs "authpriv", LogAUTHPRIV); (bs "ftp", LogFTP);
    (bs "local0", LogLOCAL0); (bs "local1", LogLOCAL1); (bs "local2", LogLOCAL2);
    (bs "local3", LogLOCAL3); (bs "local4", LogLOCAL4); (bs "local5", LogLOCAL5);
    (bs "local6", LogLOCAL6); (bs "local7", LogLOCAL7) ].

(** priority.go:76-85  var severity = map[string]Priority *)
Definition severity_map : list (bytes * Z) :=
  [ (bs "emerg", LogEMERG); (bs "alert", LogALERT); (bs "crit", LogCRIT); (bs "err", LogERR);
    (bs "warning", LogWARNING); (bs "notice", LogNOTICE); (bs "info", LogINFO); (bs "debug", LogDEBUG) ].

(** priority.go:87 *)
Definition severity_string : list bytes :=
  [bs "emerg"; bs "alert"; bs "crit"; bs "err"; bs "warning"; bs "notice"; bs "info"; bs "debug"].

(** priority.go:88-90 *)
Definition facility_string : list bytes :=
  [bs "kern"; bs "user"; bs "mail"; bs "daemon"; bs "auth"; bs "syslog"; bs "lpr"; bs "news";
   bs "uucp"; bs "cron"; bs "authpriv"; bs "ftp"; bs "-"; bs "-"; bs "-"; bs "-";
   bs "local0"; bs "local1"; bs "local2"; bs "local3"; bs "local4"; bs "local5"; bs "local6"; bs "local7"].

(** Go map lookup m[key] (keys are distinct). (used by priority.go:100-117) *)
Fixpoint lookup (m : list (bytes * Z)) (k : bytes) : option Z :=
  match m with
  | [] => None
  | (k', v) :: r => if bytes_eqb k' k then Some v else lookup r k
  end.

(** priority.go:93-120  (p *Priority) Set(d string) error.
    Returns the new value of the receiver and whether the error is nil.
    The rune loop of lines 96-101 finds the first '.': in UTF-8 (valid or not) the byte '.'
    only occurs as the rune '.', so this is the index of the first '.' byte. *)
Definition priority_set (old : Z) (d : bytes) : Z * bool :=
  match index_byte DOT d with
  | None => (old, false)
  | Some pos =>
      match lookup facility_map (firstn pos d) with
      | None => (old, false)
      | Some f =>
          match lookup severity_map (skipn (pos + 1) d) with
          | None => (old, false)
          | Some s => (Z.lor f s, true)
          end
      end
  end.

(** priority.go:123-125 *)
Definition priority_facility (p : Z) : Z := Z.land p facility_mask.

(** priority.go:128-130 *)
Definition priority_severity (p : Z) : Z := Z.land p severity_mask.

(** priority.go:132-134  String: two table accesses with Go's bound checks. *)
Definition priority_string (p : Z) : res bytes :=
  match nth_error facility_string (Z.to_nat (Z.shiftr (priority_facility p) 3)) with
  | None => Panic
  | Some f =>
      match nth_error severity_string (Z.to_nat (priority_severity p)) with
      | None => Panic
      | Some s => Val (f ++ bs "." ++ s)
      end
  end.

(** byte + byte in Go wraps modulo 256. (used by priority.go:137-156) *)
Definition byte_add (a b : N) : N := ((a + b) mod 256)%N.

(** priority.go:137-156  Marshal5424; the error is always nil, so only data is returned.
    Go's % truncates towards zero: [Z.rem]. *)
Definition priority_marshal (p : Z) : bytes :=
  let u := to_byte (Z.rem p 10) in
  let d := to_byte (Z.rem p 100 - Z.rem p 10) in
  let c := to_byte (p - Z.rem p 100) in
  let c := byte_add C0 (c / 100) in
  let d := byte_add C0 (d / 10) in
  let u := byte_add C0 (u / 1) in
  if (C0 <? c)%N then [LT; c; d; u; GT; C1]
  else if (C0 <? d)%N then [LT; d; u; GT; C1]
  else [LT; u; GT; C1].

(** priority.go:176-183  the digit loop *)
Fixpoint unmarshal_digits (b : bytes) (tp : Z) : option Z :=
  match b with
  | [] => Some tp
  | v :: r =>
      if (v <? C0)%N || (C9 <? v)%N then None
      else unmarshal_digits r (tp * 10 + Z.of_N (v - C0))
  end.

(** priority.go:159-187  (p *Priority) Unmarshal5424(d) error: new receiver value, success. *)
Definition priority_unmarshal (old : Z) (d : bytes) : res (Z * bool) :=
  let s := length d in
  if (s <? 4)%nat then Val (old, false)
  else if (6 <? s)%nat then Val (old, false)
  else
    do d0 <- go_at d 0;
    if negb (N.eqb d0 LT) then Val (old, false)
    else
      do d1 <- go_at d (s - 1);
      if negb (N.eqb d1 C1) then Val (old, false)
      else
        do d2 <- go_at d (s - 2);
        if negb (N.eqb d2 GT) then Val (old, false)
        else
          do b <- go_slice d 1 (s - 2);
          match unmarshal_digits b 0 with
          | None => Val (old, false)
          | Some tp => Val (tp, true)
          end.
