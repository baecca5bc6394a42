# Formal model of nathanaelle/syslog5424 in Coq 8.16.1

## 1. Method

* Bytes are `N`, Go strings and byte slices are `list N`.  Theorems quantify over all `list N`, a superset of the byte
  strings; every refutation witness uses real bytes (< 256).
* A Go slice whose nil-ness matters is `option bytes` (`None` = nil).
* A Go call that may panic returns `res A := Val a | Panic | NoFuel`; `NoFuel` marks exhausted recursion fuel and is
  proved unreachable wherever it could appear (the totality parts of C17, C23, C30, C68...).
* `int` and `int64` are `Z`, with an explicit wrap to 64 bits (`wrap64`) where the code can overflow.
* Goroutines, channels and the mutex: transition systems `step : state -> action -> option state` (`None` = the action is
  not possible there).  An execution is a list of actions chosen by the scheduler, the network and the user, so a theorem
  about `run init acts = Some s` holds for every schedule and every behaviour of the environment.
* Slices that share memory are modelled twice: as values (most theorems) and as headers over explicit arrays
  (`MSlice.v`, `MTokMem.v`), with a refinement theorem (C35_refines) between the two for the receiver.
* Go standard library functions used by the code are transcribed: bytes.IndexByte, strconv.Itoa/Atoi/ParseInt,
  strings.TrimRightFunc with unicode.IsSpace on UTF-8, time.Format/Parse for the one layout and for time.Stamp, time.Unix,
  Time.Add, append, net.Buffers.WriteTo, net.SplitHostPort, log.Logger.Output, strconv.Quote (fmt's %q), utf8.AppendRune.

When the expected property is false of the code, the property is stated as the exact characterisation of what the code
does (usually an "if and only if"), the false expectation is mentioned in parentheses in `properties.jsonl`, and a separate
theorem with suffix `_refuted` gives a concrete witness.

## 2. Files (rocq/theories)

* `Base.v`, `BaseFacts.v`: Go primitives and their facts.
* `M*.v`: the model: definitions only, each with the Go file and lines it models and the simplifications made.
* `Spec.v`: a small independent vocabulary (words, text trimmed of white space, structured data elements...).
* `Rfc5424.v`: the grammar of RFC 5424 (section 6) and of UTF-8 (RFC 3629), rule by rule; it uses nothing of the model.
* `Conformance.v`: the test vectors of the repository (every table of the `*_test.go` files and the outputs of the
  examples) evaluated on the model.  These are tests of the model, not proofs.
* `L*.v`: lemmas.  `Prop*.v`: the property theorems `Cnn_...`, each followed by `Print Assumptions`, with `Example ..._nonvacuous`
  showing concrete cases that meet the hypotheses.

## 3. Which code is modelled

| Go file | model | not modelled |
|---|---|---|
| priority.go | MPriority.v (all) | |
| helpers.go | MHelpers.v (all) | |
| message.go | MMessage.v, MTime.v (all) | monotonic clock and zone names of time.Time |
| message-immutable.go | MParse.v (all), MCustom.v (Parse with any user-written Transport) | |
| transport.go | MTransport.v, MSlice.v (all) | |
| listener.go | MTokenize.v, MTokMem.v, MReceiver.v (all), MCustom.v (tokenize with any user-written Transport), MAnyReader.v (with any user-written DataReader) | commented-out traces |
| listener-unixdgram.go | MTokenize.v (Read), MReceiver.v (Accept, Close), MConnect.v (constructor) | socket options (SetReadBuffer...), RemoteAddr |
| listener-unix.go, listener-tcp.go, listener-guess.go | MConnect.v | socket options; Accept is the environment of MReceiver.v |
| connector.go | MSender.v (all), MSenderFine.v (the same at the granularity of memory accesses), MDatagram.v (over unix datagrams), MAnyConn.v (with any user-written Connector and WriteCloser), MStdio.v (several on one standard file), MTimed.v (with the clock and the ticker), MRecover.v (panics in Send) | Addr |
| connector-fd.go, -invalid.go, -local.go, -local_unix.go, -tcp.go, dialer.go | MConnect.v | socket options |
| connector-local_other.go | MConnectOther.v (the build for other systems) | |
| errors.go | MErrors.v (texts of the errors of Parse), MTokErr.v (where the Buffer of a received ParseError lies) | texts of the other sentinels |
| channel.go, syslog.go | MSyslog.v, MChanRace.v (all) | |
| sdata/list.go (+ MRegistry.v for its lock, MIdent.v for the identifiers), sd-unknown.go, sd-generic.go, tokens.go, structured-data.go, structured-data-encoder.go | MSData.v | |
| sdata/structured-data-decoder.go, MarshalSD, String and WriteTo helpers | MAux.v | |
| sdata/timequality/tq.go | MSData.v | |
| sdata/exported-testing.go | MTesting.v | texts of the errors |
| *_test.go | Conformance.v (their vectors and expected outputs) | burst_test.go (timing) |

## 4. Trusted base

* The Coq 8.16.1 kernel.  Every `Print Assumptions` in `Prop*.v` prints "Closed under the global context": the theorems use
  no axiom.  `coqchk` on the whole development lists the constants of `Coq.ssr.ssrunder.Under_rel` (opaque module of the
  standard library loaded by `ssreflect`), on which no theorem depends.  No axiom, admit, functor or module type is used.
* That the model says what the Go text says.  The comments cite the lines; the simplifications and assumptions are:
  - *amd64*: in tq.go the conversion of -Inf or NaN to int gives the most negative int (implementation-specific in Go).
  - *append*: the growth policy is an arbitrary capacity at least the new length; arrays are never reclaimed.
  - *io.Reader / io.Writer contracts*: Read returns at most the length of its slice; Write returns at most that many bytes,
    and all of them when there is no error.  `UnixConn.ReadFrom` returns 0 bytes with an error (both cases are modelled).
  - *Connector contract*: a Connect without error gives a usable connection; one with an error gives nil (for the
    connectors of the package this is C79/C80, with the exact panic condition of TCP).  C110 drops this assumption and io.Writer's.
  - *net.Buffers*: consumed as the byte count says; a failed write may have transmitted any prefix of the queue.
  - *atomicity*: channel operations and the unsynchronised reads of `len(*c.queue)` and of `syslog.channels` are atomic steps
    (sequential consistency).  So are critical sections under the mutex in MSender.v; for Send and flushQueue this is proved
    (C95, from MSenderFine.v where each access to the queue, the connection and the lock is a step), not assumed.  The Go memory model allows more to racy programs: the
    races found (C57) are a lower bound.
  - *ticker* (MTimed.v): fires exactly at each multiple of its period; a tick is dropped when one still waits in its channel.
  - *goroutines*: a blocked goroutine does not move; nothing is assumed about fairness except where stated.
  - *operating system* (MConnect.v): each system call is a function of an arbitrary state; `C81_takes_over` uses an explicit
    small file system.  `net.ResolveUnixAddr` does not fail for "unix" and "unixgram" (Go library).
  - *log.Logger*: one Write per Print, format of Lshortfile.
  - *reflect*: Go values are the inductive `gval` (static element types appear as flags); a superset of the well-typed values.
  - *Unicode*: `unicode.IsLetter/IsDigit` above 127 is an arbitrary predicate `uni`; `strconv.IsPrint` above 255 an arbitrary predicate `pr`.
  - *user-written Transport* (C109): its methods are arbitrary functions of their arguments, which may panic; they keep no state.
  - *map iteration order*: an arbitrary list (`order`) per call.

## 5. Plan and proof per property

| id | modelled code | proof |
|----|----------|-------|
| C01-C06 | priority.go | case analysis on arbitrary strings; finite tables; C03, C05 exact conditions with witnesses |
| C07 | helpers.go | induction over the byte list |
| C08 | TrimRightFunc/IsSpace as a table of UTF-8 suffixes | induction on the reversed list |
| C09, C10 | message.go builders | induction on the sequence of builder calls; C10 needs a valid machine host name (witness otherwise) |
| C11, C12 | Marshal5424, list.go | computation over lists |
| C13-C16 | Parse and accessors against Marshal | splitting lemmas for index_byte; exact conditions C14, C15, C16 |
| C17-C21 | Parse | fuel lemma; invariant on recorded indexes; C20 the exact language |
| C22-C29 | transports, Parse with transports | decimal and index lemmas; exact panic (C23), truncation (C24) and withholding (C29) conditions |
| C30-C34, C36, C37 | tokenize as a function of read results | induction over reads; invariant "unconsumed bytes are a suffix"; C31 exact frame sizes, C33 exact blocking condition, C34 exact delivery for LF/NUL (with structured data: PropMixed.v); C37 also over executions of a Receiver (PropPacked.v) |
| C35 | read buffer as arrays and slices | refinement to the value model; no array cell of a sent message is ever written again |
| C38 | fakeConn.Read, also under the Receiver's reads (MDatagram.v gram_reads) | induction over reads |
| C39, C40 | Receiver transition system | invariants over all schedules; exact crash condition |
| C41-C49 | Sender transition system | invariants over all schedules; exact conditions for crash (C43), frame splitting (C44), blocking (C46), leaks (C47) |
| C50-C56 | channel.go, syslog.go | induction over histories of calls |
| C57 | concurrent Channel calls | invariant over all interleavings; exact result |
| C58, C79-C82 | dialers, connectors, listeners | case analysis; induction over dialled addresses; composition with the Sender (C82) |
| C59-C61 | tokens.go, sd-unknown.go | induction over bytes |
| C62-C65 | encoder over a universe of Go values | induction on values |
| C66-C68 | timequality, generic decoders | decimal lemmas; exact panic conditions |
| C69, C70, C72 | list.go, structured-data.go | induction |
| C71, C77 | heap model of slices | exact effect of append on every other slice |
| C73-C75 | calendar, time layouts, int64 arithmetic | calendar bijection by arithmetic over all days; digit lemmas |
| C76 | Sender + Receiver, RFC 5425 | composition of C41, C44, C30, C13-C16 |
| C78, C83 | whole programs; program + Sender + Receiver | induction over calls with object histories; composition with C76 |
| C84 | Sender + Receiver, LF/NUL framing | grouping of messages per connection (sender invariant), C33-C37 per connection; with structured data (PropEndToEnd4.v, PropEndToEnd5.v for every earlier moment) through C34_mixed_iff and its version with unread bytes |
| C85 | MDatagram.v: unix datagram writes of the Sender, arrival queue, the Read of the listener | simulation of the datagram Sender by MSender.v; induction over the arrival queue; any packing of RFC 5425 frames (PropPacked.v) through C30/C31 |
| C86 | MRegistry.v: goroutines calling the registry under its mutex, one step per identifier | invariant: history is sequential + progress of the section in course; deadlock by invariance |
| C87 | MAux.v: WriteTo over an io.Writer; Parse applied to the buffer of its own result | characterisation of the accepted bodies that remain accepted unterminated; witness of one that does not |
| C88 | MTime.v parse_civil, parse_stamp against a grammar in PropStamp.v | the two parsers accept exactly the grammar (both inclusions), then the calendar of C73 |
| C89 | MAux.v: MarshalSD, List.String, UnmarshalSD | case analysis over the encoder's results; size induction on Go values for nameless types |
| C90 | MMessage.v: constructors and builder calls; MParse.v | induction on the history of calls; C10 and C13 for the wire |
| C91 | MParse.v StructuredData, MSData.v registry and decoders | the cut of a message specified independently (Spec.scanned), uniqueness through determinism of Parse, induction on the elements |
| C92 | MSender.v | a potential function decreasing on every step that is not a tick, a Send or a failure; deadlock freedom by cases on where the goroutine is |
| C93 | MSyslog.v | invariant of the Syslog over its history (LSyslog.v), induction over the derivations; relations `joined` and `named` state the naming rule step by step |
| C94 | MReceiver.v | a potential decreasing on every step that is not an input; case analysis of the states where no such step is possible; invariant of the history (LReceiver.v) |
| C95 | MSenderFine.v, MSender.v | invariant on who holds the lock; simulation of MSenderFine.v by MSender.v and back; races: case analysis of the next accesses under the invariant |
| C96 | MTesting.v, MSData.v | exact decoding and encoding of time qualities and unknown structured data (C61, C66-C68); induction on Go values: errors of the encoder are new values |
| C97 | MSenderFine.v, MSender.v, MReceiver.v | the explicit atomic execution behind a fine-grained one (C95), with its write failures; interleaving of the stored frames lifted to messages; then C76/C84, C42 and C94 |
| C98 | MSender.v | invariant from the tick on: the goroutine is still flushing, or what was sent before the tick is written; potential of C92 for the bound |
| C99 | MParse.v, MTransport.v | spec: inductive lists of the rejected shapes with their error; both directions by induction on the structured data loop, whose state is a prefix in which every closing bracket follows a backslash or a double quote |
| C100 | MErrors.v, MParse.v | one turn of the quoting loop is undone by a reader (unquote_one), hence injectivity; printable = UTF-8 of scalar values accepted by strconv.IsPrint; C99 for the messages |
| C101 | MSenderFine.v | steps counted: one per atomic action (C92), two silent ones at most per atomic action (a local potential), three per Send under way (each goroutine's calls, acquisitions, reads, stores and returns counted along the run); C98 for what a tick writes |
| C102 | MPriority.v, MParse.v | arithmetic on truncated remainders reduces any p to 0..299 (C01) or to -399..-100, swept; C19 for the message |
| C103 | MTransport.v, MMessage.v, MTokenize.v | counting delimiters in a stream; C27 for RFC 5425; white space at the end of texts (C08) for Msg; C34 for the Receiver |
| C104 | MTokMem.v (tokenize with its arrays and slices) | invariant 65037 * (arrays - 1) + offset + pending <= bytes received; slices of a round are ordered |
| C105 | MIdent.v, MSData.v | case analysis on the identifiers; C66, C61 and the shape of encoder output (C89); evaluation of the two orders |
| C106 | MSyslog.v, MSenderFine.v, MReceiver.v | composition of C78 (frames of a run from any consistent state), C97 and C83 |
| C107 | MMessage.v, MSData.v, MTime.v, MPriority.v, MSyslog.v; the grammar is Rfc5424.v, which uses nothing of the model | unique cutting of header words and elements, digit runs of the time stamp, escapes and UTF-8; programs through C78 |
| C108 | MParse.v, MTransport.v, MPriority.v, MSData.v; the grammar is Rfc5424.v, which uses nothing of the model | unique cutting of words and elements, then C19, C20, C61, C88, C91 |
| C109 | MCustom.v (Parse and tokenize over an arbitrary Transport), MSender.v | equality with MParse.v and MTokenize.v for the built-in transports; induction on the reads with the invariant 'pending bytes and unread bytes are the frames to come'; C41 for the Sender; the shape of accepted messages (C20) for SuffixStrip |
| C110 | MAnyConn.v (the steps of MSender.v with arbitrary results of Connect and of each Write) | simulation in both directions with MSender.v under the contracts; invariants by induction on the history; net.Buffers.consume as a drop of bytes |
| C111 | MAnyReader.v (the loop of MTokMem.v, on arrays and slices, with arbitrary results of Read) | invariant on the buffer and on the slices of the messages delivered; refinement of a specification of one turn on values; a turn with an honest Read is a turn of MTokMem.v from the scribbled memory |
| C112 | MRecover.v (the system of MSender.v with calls of Send that end by a panic, before or under the lock); MSData.v: Marshal5424 and Found of other packages may panic | invariant: once held by a panicked call, the goroutine is not in its critical section; erasure and projection of executions by induction |
| C113 | MStdio.v: any number of Senders of MSender.v on one os.File that is open or closed | projection on each Sender; invariant of the steps after the close; explicit loop of the deferred function |
| C114 | MTimed.v: MSender.v with a clock and the ticker (period, channel of capacity 1) | potential function: stages left times delta plus the time to the next tick, decreasing along every execution; explicit executions for exactness |
| C115 | MSender.v and MReceiver.v, a network that carries bytes in order | C30/C34 (and C84 for structured data on delimited streams, PropMany2.v) for each connection, C40 for the pipeline, a tagging of the merged sequence by induction, C94 for the end |
| C116 | MParse.v imm_writable, MSender.v and MReceiver.v at every hop | C115 at each hop, induction on the tree; a message and its copy at the microsecond have the same encoding, and conversely |
| C117 | MTokErr.v over the arrays of MTokMem.v | the slice lies before the part of the array later reads fill (the invariant of C35); the payload and the error by the inversion of RFC 5425 framing |
| C118 | MConnectOther.v, the rest of MConnect.v and MSender.v | every Connect fails, so C82_never_connects applies to every execution whose Connects are that Connector's |

All properties are expressible in the model; none is left out.

## 6. Tests of the theorems

`seeded/LOG.jsonl` records, for each deliberate bug introduced in a scratch copy of the model, which theorems stopped
proving (directly, or because they depend on a lemma that did) and which theorems were tightened as a result.
