(** MSyslog.v -- model of syslog.go and channel.go.  Definitions only. *)
From Verif Require Import Base MPriority MHelpers MText MTime MSData MMessage MTransport MSender.

(** ** channel.go *)

(** channel.go:34-42 the fields of a msgChannel.  x_out: which Sender (None: a nil *Sender, which New
    does not check). *)
Record context := { x_prio : Z; x_host : bytes; x_pid : bytes; x_app : bytes; x_msgid : bytes; x_out : option nat }.

(** The implementations of Channel: channel.go:30-47.  A msgChannel gets AppName and Msgid from the
    embedded devnull; a trueChannel overrides them and gets the rest from the embedded msgChannel. *)
Inductive channel := DevNull | MsgChannel (x : context) | TrueChannel (x : context).

(** channel.go:53-58 and syslog.go:89-94 *)
Definition app_join (app sup : bytes) : bytes := if bytes_eqb app [DASH] then sup else app ++ bs "/" ++ sup.

(** channel.go:50-68 (trueChannel), 119-121 (devnull) *)
Definition chan_app_name (c : channel) (sup : bytes) : channel :=
  match c with
  | TrueChannel d => TrueChannel {| x_prio := x_prio d; x_host := x_host d; x_pid := x_pid d; x_app := valid_app (app_join (x_app d) sup);
                                    x_msgid := x_msgid d; x_out := x_out d |}
  | MsgChannel _ | DevNull => DevNull
  end.

(** channel.go:70-79 (trueChannel), 123-125 (devnull) *)
Definition chan_msgid (c : channel) (msgid : bytes) : channel :=
  match c with
  | TrueChannel d => MsgChannel {| x_prio := x_prio d; x_host := x_host d; x_pid := x_pid d; x_app := x_app d; x_msgid := valid_msgid msgid; x_out := x_out d |}
  | MsgChannel _ | DevNull => DevNull
  end.

(** channel.go:90-92, 115-117 *)
Definition chan_is_devnull (c : channel) : bool := match c with DevNull => true | _ => false end.

(** channel.go:95, 100: the message; [now]: what Now() returns *)
Definition chan_message (x : context) (now : gotime) (d : bytes) : message := forge_message (x_prio x) now (x_host x) (x_app x) (x_pid x) (x_msgid x) d.

(** connector.go:134-147 called on c.output.  [tr o]: the transport of Sender o.  The result lists the
    frames queued (the Sender and the frame); the error of Send is ignored by the channels
    (channel.go:95, 106).  On a nil Sender, Marshal5424 comes first (connector.go:137), then c.lock
    panics. *)
Definition chan_send (uni : N -> bool) (tr : nat -> option transport) (out : option nat) (m : message) : res (list (nat * bytes)) :=
  match out with
  | Some o =>
      match send uni (tr o) m with
      | Val (inr frame) => Val [(o, frame)]
      | Val (inl _) => Val []
      | Panic => Panic
      | NoFuel => NoFuel
      end
  | None => match message_marshal uni m with Val (inl _) => Val [] | Val (inr _) => Panic | Panic => Panic | NoFuel => NoFuel end
  end.

(** channel.go:94-97, 127-129: the byte count returned (the error is always nil) and what is queued *)
Definition chan_write (uni : N -> bool) (tr : nat -> option transport) (c : channel) (now : gotime) (d : bytes) : res (nat * list (nat * bytes)) :=
  match c with
  | DevNull => Val (length d, [])
  | MsgChannel x | TrueChannel x => do q <- chan_send uni tr (x_out x) (chan_message x now d); Val (length d, q)
  end.

(** channel.go:99-107, 131-132 *)
Definition chan_log (uni : N -> bool) (tr : nat -> option transport) (c : channel) (now : gotime) (d : bytes) (sd : list sdval) : res (list (nat * bytes)) :=
  match c with
  | DevNull => Val []
  | MsgChannel x | TrueChannel x =>
      let m := chan_message x now d in
      chan_send uni tr (x_out x) (match sd with [] => m | _ => msg_add_sd m sd end)
  end.

(** channel.go:81-88, 111-113: the log.Logger made by Logger: does it add file and line?
    priority.go LogDEBUG = 7 *)
Definition chan_logger_shortfile (c : channel) : bool :=
  match c with DevNull => false | MsgChannel x | TrueChannel x => (priority_severity (x_prio x) =? 7)%Z end.

(** Go standard library, log.Logger.Output with flags 0 or Lshortfile: one Write of the prefix, the
    caller ("file.go:12") and ": " if asked, the text, and a newline unless it ends with one *)
Definition logger_line (shortfile : bool) (prefix caller s : bytes) : bytes :=
  prefix ++ (if shortfile then caller ++ bs ": " else []) ++ s ++ (if N.eqb (last s 0%N) LF then [] else [LF]).

(** Print(s) on c.Logger(prefix), called from [caller] (channel.go:81-88) *)
Definition chan_print (uni : N -> bool) (tr : nat -> option transport) (c : channel) (prefix caller : bytes) (now : gotime) (s : bytes) : res (list (nat * bytes)) :=
  do r <- chan_write uni tr c now (logger_line (chan_logger_shortfile c) prefix caller s); Val (snd r).

(** ** syslog.go *)

(** syslog.go:14-22 *)
Record syslog := { y_facility : Z; y_host : bytes; y_pid : bytes; y_app : bytes; y_channels : option (list channel); y_out : option nat; y_minsev : nat }.

(** syslog.go:25-52 New.  [hostname]: os.Hostname(), None on error; [pid]: os.Getpid().  None: the
    error for an empty app name (syslog.go:32-35). *)
Definition syslog_new (hostname : option bytes) (pid : Z) (out : option nat) (minPriority : Z) (appname : bytes) : option syslog :=
  let host := valid_host (match hostname with Some h => h | None => [DASH] end) in
  match appname with
  | [] => None
  | _ => Some {| y_facility := priority_facility minPriority; y_host := host;
                 y_pid := (let p := itoa pid in match p with [] => [DASH] | _ => p end);
                 y_app := valid_app appname; y_channels := None; y_out := out; y_minsev := Z.to_nat (priority_severity minPriority) |}
  end.

(** syslog.go:56-59 TestMode *)
Definition syslog_test_mode (s : syslog) : syslog :=
  {| y_facility := y_facility s; y_host := bs "localhost"; y_pid := bs "1234"; y_app := y_app s; y_channels := y_channels s; y_out := y_out s; y_minsev := y_minsev s |}.

(** channels[i] = c; None: index out of range (syslog.go:70, 110) *)
Fixpoint store (l : list channel) (i : nat) (c : channel) : option (list channel) :=
  match l, i with
  | [], _ => None
  | _ :: l', O => Some (c :: l')
  | x :: l', S i' => match store l' i' c with Some r => Some (x :: r) | None => None end
  end.

(** syslog.go:70-77, 111-118: the channel for severity sev *)
Definition sev_channel (facility : Z) (host pid app : bytes) (out : option nat) (sev : nat) : channel :=
  TrueChannel {| x_prio := Z.lor facility (Z.of_nat sev); x_host := host; x_pid := pid; x_app := app; x_msgid := [DASH]; x_out := out |}.

(** syslog.go:69-78, 110-119: the loop, for the severities [sevs] *)
Fixpoint fill (mk : nat -> channel) (sevs : list nat) (l : list channel) : option (list channel) :=
  match sevs with
  | [] => Some l
  | s :: more => match store l s (mk s) with Some l' => fill mk more l' | None => None end
  end.

(** syslog.go:64-67, 102-105 *)
Definition null_channels : list channel := repeat DevNull 8.
(** sev := 0; sev <= minSev; sev++ (syslog.go:69, 109) *)
Definition levels (minsev : nat) : list nat := seq 0 (S minsev).

(** syslog.go:62-82 Channel; Panic: index out of range *)
Definition syslog_channel (s : syslog) (sev : Z) : res (syslog * channel) :=
  let chans := match y_channels s with
    | Some l => Some l
    | None => fill (sev_channel (y_facility s) (y_host s) (y_pid s) (y_app s) (y_out s)) (levels (y_minsev s)) null_channels
    end in
  match chans with
  | None => Panic
  | Some l =>
      let s' := {| y_facility := y_facility s; y_host := y_host s; y_pid := y_pid s; y_app := y_app s; y_channels := Some l; y_out := y_out s; y_minsev := y_minsev s |} in
      match nth_error l (Z.to_nat (priority_severity sev)) with Some c => Val (s', c) | None => Panic end
  end.

(** syslog.go:86-121 SubSyslog *)
Definition syslog_sub (s : syslog) (sub : bytes) : res syslog :=
  let app := app_join (y_app s) sub in
  match fill (sev_channel (y_facility s) (y_host s) (y_pid s) app (y_out s)) (levels (y_minsev s)) null_channels with
  | Some l => Val {| y_facility := y_facility s; y_host := y_host s; y_pid := y_pid s; y_app := app; y_channels := Some l; y_out := y_out s; y_minsev := y_minsev s |}
  | None => Panic
  end.

(** ** a program using them: the Syslogs and Channels it has obtained, numbered in the order it got
    them, and the frames queued, with the Sender (syslog.go, channel.go) *)
Record logstate := { g_sys : list syslog; g_chan : list channel; g_queued : list (nat * bytes) }.
(** (no code: a program before its first call) *)
Definition log_init : logstate := {| g_sys := []; g_chan := []; g_queued := [] |}.

(** syslog.go:25-121, channel.go:50-132: the public calls *)
Inductive logcall :=
| LNew (hostname : option bytes) (pid : Z) (out : option nat) (minPriority : Z) (appname : bytes)
| LTestMode (i : nat) | LChannel (i : nat) (sev : Z) | LSub (i : nat) (name : bytes)
| LAppName (k : nat) (name : bytes) | LMsgid (k : nat) (id : bytes)
| LWrite (k : nat) (now : gotime) (d : bytes) | LLog (k : nat) (now : gotime) (d : bytes) (sd : list sdval)
| LPrint (k : nat) (prefix caller : bytes) (now : gotime) (s : bytes).

(** (no code: replaces one object) *)
Fixpoint set_sys (l : list syslog) (i : nat) (x : syslog) : list syslog :=
  match l, i with [], _ => [] | _ :: l', O => x :: l' | y :: l', S i' => y :: set_sys l' i' x end.

(** None: the call is made on an object the program does not have.  Val: the new state.  A New that
    fails gives no Syslog. (syslog.go:25-121, channel.go:50-132) *)
Definition log_step (uni : N -> bool) (tr : nat -> option transport) (g : logstate) (c : logcall) : option (res logstate) :=
  let with_sys (i : nat) (f : syslog -> res logstate) := match nth_error (g_sys g) i with Some s => Some (f s) | None => None end in
  let with_chan (k : nat) (f : channel -> res logstate) := match nth_error (g_chan g) k with Some s => Some (f s) | None => None end in
  let queue (r : res (list (nat * bytes))) := do q <- r; Val {| g_sys := g_sys g; g_chan := g_chan g; g_queued := g_queued g ++ q |} in
  match c with
  | LNew h pid out p app => Some (Val (match syslog_new h pid out p app with
        Some s => {| g_sys := g_sys g ++ [s]; g_chan := g_chan g; g_queued := g_queued g |} | None => g end))
  | LTestMode i => with_sys i (fun s => Val {| g_sys := set_sys (g_sys g) i (syslog_test_mode s); g_chan := g_chan g; g_queued := g_queued g |})
  | LChannel i sev => with_sys i (fun s => do r <- syslog_channel s sev;
        Val {| g_sys := set_sys (g_sys g) i (fst r); g_chan := g_chan g ++ [snd r]; g_queued := g_queued g |})
  | LSub i name => with_sys i (fun s => do s' <- syslog_sub s name; Val {| g_sys := g_sys g ++ [s']; g_chan := g_chan g; g_queued := g_queued g |})
  | LAppName k name => with_chan k (fun c => Val {| g_sys := g_sys g; g_chan := g_chan g ++ [chan_app_name c name]; g_queued := g_queued g |})
  | LMsgid k id => with_chan k (fun c => Val {| g_sys := g_sys g; g_chan := g_chan g ++ [chan_msgid c id]; g_queued := g_queued g |})
  | LWrite k now d => with_chan k (fun c => queue (do r <- chan_write uni tr c now d; Val (snd r)))
  | LLog k now d sd => with_chan k (fun c => queue (chan_log uni tr c now d sd))
  | LPrint k prefix caller now s => with_chan k (fun c => queue (chan_print uni tr c prefix caller now s))
  end.

(** syslog.go:25-121, channel.go:50-132: a sequence of calls *)
Fixpoint log_run (uni : N -> bool) (tr : nat -> option transport) (g : logstate) (cs : list logcall) : option (res logstate) :=
  match cs with
  | [] => Some (Val g)
  | c :: more =>
      match log_step uni tr g c with
      | Some (Val g') => log_run uni tr g' more
      | r => r
      end
  end.
