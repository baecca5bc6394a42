(** Conformance.v -- the test vectors of the repository evaluated on the model.  These are tests of the
    model, not proofs of properties: they show that the model gives the results that the authors of the
    code expect from the code.  Each example cites the test file it comes from. *)
From Verif Require Import Base MPriority MHelpers MText MTime MSData MMessage MTransport MParse MTokenize MTesting MSyslog.

Definition uni0 : N -> bool := fun _ => false.
Definition is_ok {A} (r : res A) : bool := match r with Val _ => true | _ => false end.

(** ** message-immutable_test.go *)

(** the registry once timequality is imported *)
Definition order0 (_ : nat) : list sdid := [IdTimeQuality].

(** message-immutable_test.go:10-21 *)
Definition parse_test : list bytes :=
  [ bs "<0>1 1970-01-01T01:00:00+01:00 - - - - -";
    bs "<12>1 1970-01-01T01:00:00Z - - - - -";
    bs "<0>1 1970-01-01T01:00:00Z bla bli blu blo - message";
    bs "<234>1 1970-01-01T01:00:00+01:00 bla bli blu blo - message";
    bs "<0>1 1970-01-01T01:00:00Z - - - - [timeQuality tzKnown=""1"" isSynced=""1""]";
    bs "<34>1 2003-10-11T22:14:15.003Z mymachine.example.com su - ID47 - \xEF\xBB\xBF'su root' failed for lonvick on /dev/pts/8";
    bs "<165>1 2003-08-24T05:14:15.000003-07:00 192.0.2.1 myproc 8710 - - %% It's time to make the do-nuts.";
    bs "<165>1 2003-10-11T22:14:15.003Z mymachine.example.com evntslog - ID47 [exampleSDID@32473 iut=""3"" eventSource=""Application"" eventID=""1011""] \xEF\xBB\xBFAn application event log entry...";
    bs "<165>1 2003-10-11T22:14:15.003Z mymachine.example.com evntslog - ID47 [exampleSDID@32473 iut=""3"" eventSource=""Application"" eventID=""1011""][examplePriority@32473 class=""high""]";
    bs "<165>1 2003-10-11T22:14:15.003Z mymachine.example.com evntslog - ID47 [exampleSDID@32473 iut=""3"" eventSource=""Application"" eventID=""1011""][exampleEscape@32473 text=""some[data\] here""]" ].

(** message-immutable_test.go:23-42: Parse succeeds, String() is the input, Writable().String() too *)
Definition round_trip (tt : bytes) : bool :=
  match parse tt None false with
  | Val (a, _, None) =>
      bytes_eqb (imm_string a) tt &&
      match imm_writable order0 [] a with
      | Val m => match message_string uni0 m with Val s => bytes_eqb s tt | _ => false end
      | _ => false
      end
  | _ => false
  end.
Example Test_MessageImmutable_Parse : forallb round_trip parse_test = true.
Proof. vm_compute. reflexivity. Qed.

Definition utc (y mo d h mi s ns : Z) : gotime := time_of_civil {| c_year := y; c_month := mo; c_day := d; c_hour := h; c_min := mi; c_sec := s; c_nsec := ns; c_off := 0 |}.
(** time.Time.Equal *)
Definition same_instant (a b : gotime) : bool := Z.eqb (t_sec a) (t_sec b) && Z.eqb (t_nsec a) (t_nsec b).

(** message-immutable_test.go:44-104 *)
Example Test_MessageImmutable_Values_1 :
  let tt := bs "<12>1 1970-01-01T01:00:00Z - - - - -" in
  round_trip tt = true /\
  exists a ts, parse tt None false = Val (a, None, None) /\ imm_priority a = Val (Z.lor LogUSER LogWARNING) /\
    imm_timestamp a = Val ts /\ same_instant ts (utc 1970 1 1 1 0 0 0) = true /\ imm_hostname a = Val (bs "-") /\
    imm_appname a = Val (bs "-") /\ imm_procid a = Val (bs "-") /\ imm_msgid a = Val (bs "-") /\
    imm_structured_data order0 [] a = Val [] /\ list_marshal uni0 [] = Val (inr (bs "-")) /\ imm_text a = Val [].
Proof. split; [vm_compute; reflexivity|]. do 2 eexists. split; [vm_compute; reflexivity|]. repeat (split; [vm_compute; reflexivity|]). vm_compute. reflexivity. Qed.

(** message-immutable_test.go:106-170 *)
Example Test_MessageImmutable_Values_2 :
  let tt := bs "<165>1 2003-08-24T05:14:15.000003-07:00 192.0.2.1 myproc 8710 foobar [timeQuality tzKnown=""1"" isSynced=""1""] %% It's time to make the do-nuts." in
  round_trip tt = true /\
  exists a ts q, parse tt None false = Val (a, None, None) /\ imm_priority a = Val (Z.lor LogLOCAL4 LogNOTICE) /\
    imm_timestamp a = Val ts /\ same_instant ts (utc 2003 8 24 12 14 15 3000) = true /\ imm_hostname a = Val (bs "192.0.2.1") /\
    imm_appname a = Val (bs "myproc") /\ imm_procid a = Val (bs "8710") /\ imm_msgid a = Val (bs "foobar") /\
    imm_structured_data order0 [] a = Val [SDTimeQuality q] /\ imm_text a = Val (bs "%% It's time to make the do-nuts.").
Proof. split; [vm_compute; reflexivity|]. do 3 eexists. split; [vm_compute; reflexivity|]. repeat (split; [vm_compute; reflexivity|]). vm_compute. reflexivity. Qed.

(** message-immutable_test.go:205-293: the benchmarks, which panic on an error *)
Definition bench : list bytes :=
  [ bs "<0>1 1970-01-01T01:00:00+01:00 - - - - -";
    bs "<165>1 2003-08-24T05:14:15.000003-07:00 192.0.2.1 myproc 8710 - - %% It's time to make the do-nuts.";
    bs "<0>1 1970-01-01T01:00:00Z - - - - [timeQuality tzKnown=""1"" isSynced=""1""]";
    bs "<0>1 1970-01-01T01:00:00Z - - - - [timeQualitat tzKnown=""1"" isSynced=""1""]";
    bs "<165>1 2003-10-11T22:14:15.003Z mymachine.example.com evntslog - ID47 [exampleSDID@32473 iut=""3"" eventSource=""Application"" eventID=""1011""][examplePriority@32473 class=""high""] Some log message with structured data";
    bs "<190>1 2016-02-21T01:19:11+00:00 batch6sj - - - [meta sequenceId=""21881798"" x-group=""37051387""][origin x-service=""tracking""] metascutellar conversationalist nephralgic exogenetic graphy streng outtaken acouasm amateurism prenotice Lyonese bedull antigrammatical diosphenol gastriloquial bayoneteer sweetener naggy roughhouser dighter addend sulphacid uneffectless ferroprussiate reveal Mazdaist plaudite Australasian distributival wiseman rumness Seidel topazine shahdom sinsion mesmerically pinguedinous ophthalmotonometer scuppler wound eciliate expectedly carriwitchet dictatorialism bindweb pyelitic idic atule kokoon poultryproof rusticial seedlip nitrosate splenadenoma holobenthic uneternal Phocaean epigenic doubtlessly indirection torticollar robomb adoptedly outspeak wappenschawing talalgia Goop domitic savola unstrafed carded unmagnified mythologically orchester obliteration imperialine undisobeyed galvanoplastical cycloplegia quinquennia foremean umbonal marcgraviaceous happenstance theoretical necropoles wayworn Igbira pseudoangelic raising unfrounced lamasary centaurial Japanolatry microlepidoptera";
    bs "<191>1 2018-12-31T23:59:59.999999-23:59 abcdefghilmnopqrstuvzabcdefghilmnopqrstuvzabcdefghilmnopqrstuvzabcdefghilmnopqrstuvzabcdefghilmnopqrstuvzabcdefghilmnopqrstuvzabcdefghilmnopqrstuvzabcdefghilmnopqrstuvzabcdefghilmnopqrstuvzabcdefghilmnopqrstuvzabcdefghilmnopqrstuvzabcdefghilmnopqrstuvzabc abcdefghilmnopqrstuvzabcdefghilmnopqrstuvzabcdef abcdefghilmnopqrstuvzabcdefghilmnopqrstuvzabcdefghilmnopqrstuvzabcdefghilmnopqrstuvzabcdefghilmnopqrstuvzabcdefghilmnopqrstuvzab abcdefghilmnopqrstuvzabcdefghilm [an@id key1=""val1"" key2=""val2""][another@id key1=""val1""] Some message ""GET""";
    bs "<165>1 2003-10-11T22:14:15.003Z mymachine.example.com evntslog - ID47 [exampleSDID@32473 iut=""3"" eventSource=""Application"" eventID=""1011""][examplePriority@32473 class=""high""] Some log message with structured data" ].
Example Benchmark_MessageImmutable_Parse :
  forallb (fun d => match parse d None false with Val (a, _, None) => is_ok (imm_writable order0 [] a) | _ => false end) bench = true.
Proof. vm_compute. reflexivity. Qed.

(** ** message_test.go:11-44 *)
Definition zEpoch : gotime := time_parse (bs "1970-01-01T01:00:00Z").
Definition mk (p : Z) (host app pid id : bytes) (sd : list sdval) (text : bytes) : message :=
  {| m_prio := p; m_time := zEpoch; m_host := host; m_app := app; m_procid := pid; m_msgid := id; m_sd := sd; m_text := text |}.
Definition tq11 : sdval := SDTimeQuality {| tzKnown := true; isSynced := true; syncAccuracy := None |}.
Example TestMessage :
  message_string uni0 (mk 0 (bs "-") (bs "-") (bs "-") (bs "-") [] []) = Val (bs "<0>1 1970-01-01T01:00:00Z - - - - -") /\
  message_string uni0 (mk 0 (bs "-") (bs "-") (bs "-") (bs "-") [tq11] []) = Val (bs "<0>1 1970-01-01T01:00:00Z - - - - [timeQuality tzKnown=""1"" isSynced=""1""]") /\
  message_string uni0 (mk 24 (bs "bla") (bs "bli") (bs "blu") (bs "blo") [] (bs "message")) = Val (bs "<24>1 1970-01-01T01:00:00Z bla bli blu blo - message").
Proof. vm_compute. repeat split. Qed.

(** ** priority_test.go:13-64, 85-121 *)
Example TestPriority :
  forallb (fun d => negb (snd (priority_set 0 d))) [bs "foo.bar"; bs "kern.emerg.info"; bs "kern"] = true /\
  priority_set 0 (bs "kern.emerg") = (0%Z, true) /\ priority_string 0 = Val (bs "kern.emerg") /\
  priority_set 0 (bs "user.debug") = (15%Z, true) /\ priority_string 15 = Val (bs "user.debug") /\
  snd (priority_set 0 (bs "cron.warning")) = true /\ priority_unmarshal 0 (bs "<15>1") = Val (15%Z, true).
Proof. vm_compute. repeat split. Qed.
Example TestPriorityMarshal5424 :
  forallb (fun i => bytes_eqb (priority_marshal (Z.of_nat i)) (bs "<" ++ utoa (N.of_nat i) ++ bs ">1")) (seq 0 256) = true.
Proof. vm_compute. reflexivity. Qed.

(** ** transport_test.go.  The tests compare with bytes.Equal, for which nil is the empty slice. *)
Definition flat (r : slice * slice * option perr) : bytes * bytes * option perr :=
  let '(d, r, e) := r in ((match d with Some d => d | None => [] end), (match r with Some r => r | None => [] end), e).
Definition prefix_gives t eof b d r e : Prop := exists x, prefix_strip t b eof = Val x /\ flat x = (d, r, e).
Definition suffix_gives t eof b d r e : Prop := flat (suffix_strip t b eof) = (d, r, e).
Definition tmsg : bytes := bs "<0>1 1970-01-01T01:00:00Z bla bli blu blo - message".
Ltac conform := repeat split; unfold prefix_gives; try (eexists; split); vm_compute; reflexivity.
(** transport_test.go:9-24 *)
Example TestTransportZeroEnded :
  let buf1 := tmsg ++ [NUL] ++ tmsg ++ [NUL] in let buf2 := tmsg ++ [NUL] in
  prefix_gives TZeroEnded false [] [] [] None /\ suffix_gives TZeroEnded false [] [] [] None /\
  prefix_gives TZeroEnded false buf1 buf1 [] None /\ suffix_gives TZeroEnded false buf1 tmsg buf2 None /\
  suffix_gives TZeroEnded false buf2 tmsg [] None /\ suffix_gives TZeroEnded false tmsg tmsg [] None /\
  suffix_gives TZeroEnded true tmsg tmsg [] None.
Proof. conform. Qed.
(** transport_test.go:26-40 *)
Example TestTransportLFEnded :
  let buf1 := tmsg ++ [LF] ++ tmsg ++ [LF] in let buf2 := tmsg ++ [LF] in
  suffix_gives TLFEnded false [] [] [] None /\ prefix_gives TLFEnded false [] [] [] None /\
  prefix_gives TLFEnded false buf1 buf1 [] None /\ suffix_gives TLFEnded false buf1 tmsg buf2 None /\
  suffix_gives TLFEnded false buf2 tmsg [] None /\ suffix_gives TLFEnded false tmsg tmsg [] None /\
  suffix_gives TLFEnded true tmsg tmsg [] (Some ErrTransportIncomplete).
Proof. conform. Qed.
(** transport_test.go:42-60 *)
Example TestTransportRFC5425 :
  let buf2 := bs "51 " ++ tmsg in let buf1 := buf2 ++ buf2 in
  let cut (b : bytes) := firstn (length b - 10) b in
  suffix_gives TRFC5425 false [] [] [] None /\ suffix_gives TRFC5425 false tmsg tmsg [] None /\
  suffix_gives TRFC5425 true tmsg tmsg [] None /\ prefix_gives TRFC5425 false [] [] [] None /\
  prefix_gives TRFC5425 false buf1 tmsg buf2 None /\ prefix_gives TRFC5425 false buf2 tmsg [] None /\
  prefix_gives TRFC5425 false (cut buf2) [] [] None /\ prefix_gives TRFC5425 true (cut buf1) tmsg (cut buf2) None /\
  prefix_gives TRFC5425 true (cut buf2) (cut tmsg) [] (Some ErrTransportIncomplete).
Proof. conform. Qed.

(** ** sdata/structured-data_test.go:53-78 *)
Definition str (s : bytes) : gval := VBasic (match s with [] => true | _ => false end) s.
Definition example_sd (src : bytes) : sdval :=
  SDGeneric (bs "exampleSDID@32473") false (VMap true false (Some [(bs "iut", str (bs "3")); (bs "eventSource", str src); (bs "eventID", str (bs "1011"))])).
Definition origin_sd : sdval :=
  SDGeneric (bs "origin") false (VMap true false (Some [(bs "ip", VSlice false (Some [str (bs "192.0.2.1"); str (bs "192.0.2.129")]))])).
Definition passes (f : foundable) (t : sdtest) : bool := match do_test uni0 (fun _ _ => true) [] t f with Val None => true | _ => false end.
(** the registry of the test, once GenericSD has been called on the two types (sd-generic.go:23-36) *)
Definition sd_registry : list sdid := [IdGeneric (bs "exampleSDID@32473"); IdGeneric (bs "origin")].
Definition sd_tests : list sdtest :=
  [ TGeneric (bs "[exampleSDID@32473 eventID=""1011"" eventSource=""Application"" iut=""3""]") (Some (example_sd (bs "Application")));
    TGeneric (bs "[exampleSDID@32473 eventID=""1011"" eventSource=""[Application\]"" iut=""3""]") (Some (example_sd (bs "[Application]")));
    TGeneric (bs "[origin ip=""192.0.2.1"" ip=""192.0.2.129""]") (Some origin_sd);
    TInvalidUnmarshal (bs "[ exampleSDID@32473 iut=""3"" eventSource=""Application"" eventID=""1011""]");
    TInvalidUnmarshal (bs "[exampleSDID iut=""3"" eventSource =""Application"" eventID=""1011""]") ].
Example TestStructuredData :
  forallb (passes (OfRegistry sd_registry)) sd_tests = true /\ forallb (passes (OfRegistry (rev sd_registry))) sd_tests = true /\
  forallb (passes (OfRegistry [])) sd_tests = true.
Proof. vm_compute. repeat split. Qed.

(** ** sdata/timequality/tq_test.go:13-55 *)
Definition q (a b : bool) (c : option Z) : option sdval := Some (SDTimeQuality {| tzKnown := a; isSynced := b; syncAccuracy := c |}).
Definition tq_tests : list sdtest :=
  [ TValid (bs "[timeQuality]") (q false false None) (bs "[timeQuality]");
    TValid (bs "[timeQuality tzKnown=""0"" isSynced=""0""]") (q false false None) (bs "[timeQuality]");
    TValid (bs "[timeQuality tzKnown=""0""]") (q false false None) (bs "[timeQuality]");
    TValid (bs "[timeQuality tzKnown=""1"" isSynced=""0""]") (q true false None) (bs "[timeQuality tzKnown=""1""]");
    TValid (bs "[timeQuality tzKnown=""1""]") (q true false None) (bs "[timeQuality tzKnown=""1""]");
    TValid (bs "[timeQuality tzKnown=""1"" isSynced=""1""]") (q true true None) (bs "[timeQuality tzKnown=""1"" isSynced=""1""]");
    TValid (bs "[timeQuality tzKnown=""1"" isSynced=""1"" syncAccuracy=""60000000""]") (q true true (Some 60000000%Z)) (bs "[timeQuality tzKnown=""1"" isSynced=""1"" syncAccuracy=""60000000""]");
    TInvalidUnmarshal (bs "timequality]");
    TInvalidUnmarshal (bs "[timequality]");
    TInvalidUnmarshal (bs "[timequality");
    TInvalidUnmarshal (bs "[ timeQuality]");
    TInvalidUnmarshal (bs "[timeQuality invalid=""1""]");
    TInvalidUnmarshal (bs "[timeQuality invalid=1]");
    TInvalidUnmarshal (bs "[timeQuality invalid=""1]");
    TInvalidUnmarshal (bs "[timeQuality tzKnown =""1""]");
    TInvalidUnmarshal (bs "[timeQuality tzKnown=""a""]");
    TInvalidUnmarshal (bs "[timeQuality tzKnown=""1"" isSynced=""a""]");
    TInvalidUnmarshal (bs "[timeQuality tzKnown=""0"" isSynced=""1""]");
    TInvalidUnmarshal (bs "[timeQuality tzKnown=""1""isSynced=""1""]");
    TInvalidUnmarshal (bs "[timeQuality tzKnown=""1"" isSynced=""1"" syncAccuracy=""a""]");
    TInvalidUnmarshal (bs "[timeQuality tzKnown=""1"" isSynced=""0"" syncAccuracy=""1000""]");
    TInvalidMarshal (q false true None) (Some EInvalidTimeQuality);
    TInvalidMarshal (q false true (Some 100%Z)) (Some EInvalidTimeQuality);
    TInvalidMarshal (q false false (Some 100%Z)) (Some EInvalidTimeQuality);
    TInvalidMarshal (q true false (Some 100%Z)) (Some EInvalidTimeQuality) ].
Example TestTimeQuality : length tq_tests = 25%nat /\ forallb (passes (OfId IdTimeQuality)) tq_tests = true.
Proof. vm_compute. split; reflexivity. Qed.

(** ** example_01-client_test.go: the lines the program writes (the connector "stdio" uses LF framing) *)
Definition now0 : gotime := time_parse (bs "2014-12-20T14:04:00Z").
Definition someSD : sdval :=
  SDGeneric (bs "someSD@32473") false (VStruct [({| f_name := bs "Message"; f_tag := []; f_exported := true |}, str (bs "some message"));
                                                ({| f_name := bs "Errno"; f_tag := []; f_exported := true |}, VBasic false (bs "42"))]).
Definition client : list logcall :=
  [ LNew (Some (bs "myhost")) 99 (Some 0%nat) (Z.lor LogDAEMON LogWARNING) (bs "test-app"); LTestMode 0; LSub 0 (bs "configuration");
    LChannel 1 LogINFO; LChannel 1 LogERR;
    LPrint 0 (bs "INFO : ") (bs "x.go:1") now0 (bs "doing some stuff but not logged");
    LPrint 1 (bs "ERR : ") (bs "x.go:2") now0 (bs "doing some stuff");
    LChannel 1 LogERR; LLog 2 now0 (bs "another message with structured data") [someSD] ].
Example ExampleDial_stdio :
  exists g, log_run uni0 (fun _ => Some TLFEnded) log_init client = Some (Val g) /\
    concat (map snd (g_queued g)) =
    bs "<27>1 2014-12-20T14:04:00Z localhost test-app/configuration 1234 - - ERR : doing some stuff" ++ [LF] ++
    bs "<27>1 2014-12-20T14:04:00Z localhost test-app/configuration 1234 - [someSD@32473 Message=""some message"" Errno=""42""] another message with structured data" ++ [LF].
Proof. eexists. split; [vm_compute; reflexivity|]. vm_compute. reflexivity. Qed.

(** ** example_02-server_test.go (NUL), example_03-custom_test.go (RFC 5425), example_04-tcp_test.go (LF):
    the lines the receiving program prints, the whole stream being read at once, and byte by byte *)
Definition example_client (app : bytes) : list logcall :=
  [ LNew (Some (bs "myhost")) 99 (Some 0%nat) (Z.lor LogDAEMON LogWARNING) app; LTestMode 0; LChannel 0 LogERR;
    LPrint 0 (bs "ERR : ") (bs "x.go:1") now0 (bs "doing some stuff");
    LPrint 0 (bs "ERR : ") (bs "x.go:2") now0 (bs "doing anoter stuff");
    LPrint 0 (bs "ERR : ") (bs "x.go:3") now0 (bs "doing a last stuff") ].
Definition example_stream (t : transport) (app : bytes) : bytes :=
  match log_run uni0 (fun _ => Some t) log_init (example_client app) with Some (Val g) => concat (map snd (g_queued g)) | _ => [] end.
Definition printed (t : transport) (reads : list (bytes * option read_err)) : list (bytes * option perr) :=
  map (fun x => (imm_string (fst x), snd x)) (o_sent (tok_run t tok_init reads)).
Definition expected (app : bytes) : list (bytes * option perr) :=
  map (fun s => (bs "<27>1 2014-12-20T14:04:00Z localhost " ++ app ++ bs " 1234 - - ERR : " ++ s, None))
    [bs "doing some stuff"; bs "doing anoter stuff"; bs "doing a last stuff"].
Example ExampleListener :
  printed TZeroEnded [(example_stream TZeroEnded (bs "client-app"), None)] = expected (bs "client-app") /\
  printed TRFC5425 [(example_stream TRFC5425 (bs "custom-app"), None)] = expected (bs "custom-app") /\
  printed TRFC5425 (map (fun b => ([b], None)) (example_stream TRFC5425 (bs "custom-app"))) = expected (bs "custom-app") /\
  printed TLFEnded [(example_stream TLFEnded (bs "client-app"), None)] = expected (bs "client-app").
Proof. vm_compute. repeat split. Qed.
