{"id": "C01", "title": "Priority wire form is canonical decimal and decodes back", "statement": "For every priority p with 0 <= p <= 299, p.Marshal5424() returns '<' + the decimal numeral of p without leading zero + '>1' and a nil error, and Unmarshal5424 of that text yields p.", "quantifier": "every priority in 0..299 (superset of the RFC range 0..191)", "why_tests_cant": "the digits are produced by three separate modular byte computations; the existing test stops at 255 and never decodes", "anchors": ["priority.go:Priority.Marshal5424", "priority.go:Priority.Unmarshal5424"]}
{"id": "C02", "title": "Priority decoding accepts exactly '<' 1-3 digits '>1'", "statement": "Unmarshal5424(d) succeeds if and only if d is '<' followed by one, two or three ASCII digits followed by '>1'; on success the receiver holds the decimal value of the digits, and on failure the receiver is unchanged.", "quantifier": "every byte sequence of every length", "why_tests_cant": "the rejected set is infinite", "anchors": ["priority.go:Priority.Unmarshal5424"]}
{"id": "C03", "title": "When re-encoding a decoded priority preserves its value", "statement": "For every text that Unmarshal5424 accepts, with value p, the text written by Marshal5424 decodes to p again if and only if p <= 299. (So the expectation that relaying any received message keeps its priority is false: '<300>1' is accepted and re-encoded as another priority.)", "quantifier": "every accepted priority text", "why_tests_cant": "needs all decodable values, not only those a well-behaved peer sends", "anchors": ["priority.go:Priority.Marshal5424", "priority.go:Priority.Unmarshal5424", "message-immutable.go:MessageImmutable.Priority"]}
{"id": "C04", "title": "Set and String are inverse on named priorities", "statement": "Set(s) succeeds if and only if s is '<facility name>.<severity name>' for one of the 20 facility and 8 severity names; it then stores facility|severity and String() of the result is s. Otherwise it returns an error and leaves the receiver unchanged. For every p in 0..191 whose facility is named, Set(p.String()) restores p.", "quantifier": "every string; every priority 0..191", "why_tests_cant": "the rejected set is infinite and the tables are independent of each other", "anchors": ["priority.go:Priority.Set", "priority.go:Priority.String"]}
{"id": "C05", "title": "Exactly when String() of a priority panics", "statement": "String() of a priority p returns a string if and only if (p/8) mod 32 < 24, and panics otherwise; in particular it returns for every priority 0..191; the string is the facility name ('-' for 12..15), a dot and the severity name. (The expectation that it never panics on a decoded priority is false: Unmarshal5424 accepts '<192>1' and String() then panics.)", "quantifier": "every priority value", "why_tests_cant": "an index into a 24-entry table guarded by no check", "anchors": ["priority.go:Priority.String", "priority.go:Priority.Unmarshal5424"]}
{"id": "C06", "title": "Facility and severity partition a priority", "statement": "For every p in 0..255, p.Facility()|p.Severity() = p = p.Facility()+p.Severity(), p.Severity() is in 0..7 and p.Facility() is a multiple of 8; for every facility f in 0..31 and severity s in 0..7, Facility(8f|s)=8f and Severity(8f|s)=s.", "quantifier": "every value 0..255", "why_tests_cant": "bit mask arithmetic over the whole range", "anchors": ["priority.go:Priority.Facility", "priority.go:Priority.Severity"]}
{"id": "C07", "title": "Header field sanitising is total, bounded and faithful", "statement": "Host/AppName/ProcID/MsgID store, for every input string, a non-empty string of at most 255/48/128/32 bytes all in '!'..'~'; an empty input becomes '-'; otherwise byte i of the stored string is byte i of the input if it is printable and '%' if not; a string that is already valid is stored unchanged and sanitising twice equals sanitising once.", "quantifier": "every byte string", "why_tests_cant": "unbounded inputs and every byte value at every position", "anchors": ["helpers.go:validatorGeneric", "helpers.go:validHost", "helpers.go:validApp", "helpers.go:validProcid", "helpers.go:validMsgid"]}
{"id": "C08", "title": "Message text is trimmed of trailing white space only", "statement": "Msg, CreateMessage, CreateWholeMessage and every channel write store the text left after removing white space characters (the Unicode ones, in UTF-8) from the end of the given text until it ends with none; that text is unique, nothing else is changed, and trimming twice equals trimming once.", "quantifier": "every byte string, valid UTF-8 or not", "why_tests_cant": "white space is a set of multi-byte characters matched from the end of arbitrary bytes", "anchors": ["message.go:Message.Msg", "message.go:CreateMessage", "message.go:CreateWholeMessage", "message.go:forgeMessage"]}
{"id": "C09", "title": "Setters change one field and never the receiver", "statement": "Each of Time, Host, AppName, ProcID, MsgID, Priority, Msg, StructuredData returns a message that differs from its receiver only in the named field; the order in which setters of different fields are applied does not matter and the last setter of one field wins (StructuredData accumulates).", "quantifier": "every message and every argument, every pair of setters", "why_tests_cant": "positional struct literals repeated in a dozen methods: a swap shows only on particular values", "anchors": ["message.go:Message.Time", "message.go:Message.Host", "message.go:Message.AppName", "message.go:Message.ProcID", "message.go:Message.MsgID", "message.go:Message.Priority", "message.go:Message.Msg", "message.go:Message.StructuredData"]}
{"id": "C10", "title": "Header fields of every message obtainable from the public builders", "statement": "Starting from CreateMessage, CreateWholeMessage or EmptyMessage and applying any sequence of setters, app name, procid and msgid are always non-empty printable words without spaces within the RFC length limits, and so is the host name if the machine's host name is such a word or if the machine's host name is not used (no CreateMessage, no LocalHost). (Without that condition the claim is false: os.Hostname() is stored unsanitised, '' when it fails.)", "quantifier": "every finite sequence of builder calls with arbitrary arguments and any machine host name", "why_tests_cant": "histories of calls; the machine host name is an uncontrolled input", "anchors": ["message.go:CreateMessage", "message.go:Message.LocalHost", "message.go:EmptyMessage"]}
{"id": "C11", "title": "Exact wire format of a message", "statement": "Marshal5424 of a message whose structured data all encode returns the concatenation: priority, SP, timestamp, SP, host, SP, app, SP, procid, SP, msgid, SP, structured data, and if and only if the text is non-empty SP and the text; String() returns the same bytes.", "quantifier": "every message", "why_tests_cant": "two near-duplicate code paths with hand-counted capacities", "anchors": ["message.go:Message.Marshal5424", "message.go:Message.String"]}
{"id": "C12", "title": "Marshalling fails exactly when a structured data element fails", "statement": "Marshal5424 returns an error if and only if some structured data element returns one; the error is that of the first failing element and no bytes are returned.", "quantifier": "every message and every list of structured data", "why_tests_cant": "error position in an arbitrary list", "anchors": ["message.go:Message.Marshal5424", "sdata/list.go:List.Marshal5424"]}
{"id": "C13", "title": "Parse recovers every header field of an encoded message", "statement": "For every message with non-empty, space-free header fields and no structured data, Parse(Marshal5424(m), nil, _) succeeds, String() returns the encoded bytes and Priority, Hostname, AppName, ProcID, MsgID, Text and StructuredData return m's values.", "quantifier": "every message without structured data, any text bytes", "why_tests_cant": "round trip over unbounded field contents", "anchors": ["message-immutable.go:Parse", "message.go:Message.Marshal5424"]}
{"id": "C14", "title": "Exactly when Writable(Parse(Marshal m)) is m", "statement": "For every message with valid header fields, a priority 0..299, an encodable timestamp (year 0..9999, whole-minute offset) and structured data whose elements the decoders give back (in whatever order they are tried: a default-decoded element every registered decoder rejects, or a consistent timeQuality that says something when timeQuality is registered and tried first; a GenericSD never comes back), Parse(Marshal5424(m)) succeeds and Writable() of the result equals m with the timestamp truncated to microseconds if and only if m has no structured data, or no text, or a text in which every ']' follows a backslash and which does not end with ']'. (Writable(Parse(Marshal m)) = m for every m is false.)", "quantifier": "every such message", "why_tests_cant": "composition of five codecs", "anchors": ["message-immutable.go:MessageImmutable.Writable", "message-immutable.go:Parse", "message.go:Message.Marshal5424"]}
{"id": "C15", "title": "Exactly which texts are recovered after structured data", "statement": "For every message carrying structured data that encodes to elements with parameters and a non-empty text, Parse(Marshal5424(m), nil, _) succeeds with Text() equal to the text if and only if every ']' in the text follows a backslash and the text does not end with ']'. (The expectation that any text is recovered is false.)", "quantifier": "every text, in particular texts containing ']'", "why_tests_cant": "the parser looks for ']' in the text too", "anchors": ["message-immutable.go:Parse", "message-immutable.go:MessageImmutable.Text"]}
{"id": "C16", "title": "Exactly which structured data elements can be parsed back in a message", "statement": "A message with a structured data element that has no parameters (for example the zero TimeQuality, '[timeQuality]'; its name not ending in a backslash), after any number of elements with parameters and whatever follows it, is rejected by Parse; a text-less message whose only element is of the unknown kind with valid names and values parses back if and only if it has at least one parameter. (The expectation that every element that encodes can be parsed back is false.)", "quantifier": "every element including those without parameters", "why_tests_cant": "the accepted language of the parser against the produced language of the encoders", "anchors": ["message-immutable.go:Parse", "sdata/timequality/tq.go:TimeQuality.Marshal5424"]}
{"id": "C17", "title": "Parse without transport is total", "statement": "For every byte slice, Parse(data, nil, eof) terminates and returns without panicking; it consumes the whole input (rest is nil) and String() of a success is the input.", "quantifier": "every byte slice", "why_tests_cant": "every index expression must be in range for every input", "anchors": ["message-immutable.go:Parse", "message-immutable.go:searchNextSep"]}
{"id": "C18", "title": "Accessors never fail on a successfully parsed message", "statement": "Whenever Parse returned a non-nil-buffer message with a nil error, Priority, TimeStamp, Hostname, AppName, ProcID, MsgID and Text return without panicking, for every transport and every input. Of the pairs that Receive returns: with a nil error the same holds; with an error (RFC 5425 only) the message is the zero MessageImmutable, on which every one of these but Text panics.", "quantifier": "every input, transport and EOF flag for which Parse succeeds", "why_tests_cant": "index positions are recorded before the buffer is cut", "anchors": ["message-immutable.go:Parse", "message-immutable.go:parseReturn", "message-immutable.go:MessageImmutable"]}
{"id": "C19", "title": "A successful Parse splits the header faithfully", "statement": "If Parse(data, nil, eof) succeeds then data is w1 SP w2 SP w3 SP w4 SP w5 SP w6 SP r with every wi non-empty and space-free and r non-empty, and the accessors are computed from exactly w1..w6.", "quantifier": "every input", "why_tests_cant": "soundness over all accepted inputs", "anchors": ["message-immutable.go:Parse"]}
{"id": "C20", "title": "Exact language accepted by Parse and the text it returns", "statement": "Parse(data, nil, eof) succeeds with Text() = t if and only if data is six space-terminated words followed by: '-' and t is empty; or '- ' and t; or, where the first space comes after at least two bytes, a non-empty sequence of scanned elements (text in which every ']' follows a backslash, then '\"]') and t is empty; or a possibly empty sequence of them, one arbitrary byte, and t with every ']' of that byte and t after a backslash and not at the end. (The expectation that the byte dropped before the text is always a space is false.)", "quantifier": "every input", "why_tests_cant": "soundness over malformed inputs", "anchors": ["message-immutable.go:Parse"]}
{"id": "C21", "title": "Fewer than seven fields is always rejected", "statement": "Every input that has an empty field among the first six, or fewer than six spaces, or nothing after the sixth space, is rejected by Parse(data, nil, eof) with an error and a zero message.", "quantifier": "every input", "why_tests_cant": "unbounded inputs", "anchors": ["message-immutable.go:Parse"]}
{"id": "C22", "title": "RFC 5425 framing isolates messages", "statement": "For every payload d and every following bytes tail (total at least 20 bytes), Parse(Encode(d)+tail, TransportRFC5425, eof) gives the same message and error as Parse(d, nil, eof) and rest = tail, whatever d contains.", "quantifier": "every payload and tail", "why_tests_cant": "payload may contain separators, newlines, digits", "anchors": ["transport.go:tRFC5425", "message-immutable.go:Parse"]}
{"id": "C23", "title": "Exactly when Parse with a transport panics", "statement": "For every transport, every input shorter than 2^62 bytes and EOF flag, Parse panics exactly when: with the LF or NUL transport, the input is a message without text (ends with the '-' or with the last structured data element) and no delimiter; with RFC 5425 and at least 20 bytes, the length header is negative or makes the frame end wrap around 64 bits, or at EOF the frame is cut and what is left is a message without text. In every other case it returns. (The expectation that it never panics on network data is false.)", "quantifier": "every input, all three transports", "why_tests_cant": "hostile inputs are not enumerable", "anchors": ["message-immutable.go:parseReturn", "transport.go:tRFC5425.PrefixStrip"]}
{"id": "C24", "title": "What is reported of a truncated RFC 5425 frame at end of stream", "statement": "When a stream ends inside an RFC 5425 frame of which at least 20 bytes (header included) arrived, PrefixStrip reports ErrTransportIncomplete with the bytes available, and asks for more before the end. Parse reports ErrTransportIncomplete exactly when those bytes are not a message by themselves; otherwise it returns the shortened message with a nil error, nothing if its text is empty, or panics if it has no text at all. (The expectation that Parse always reports the truncation is false.)", "quantifier": "every frame and every truncation point", "why_tests_cant": "every cut position of every frame", "anchors": ["transport.go:tRFC5425.PrefixStrip", "message-immutable.go:Parse"]}
{"id": "C25", "title": "Parse never invents or reorders bytes", "statement": "For every transport and input on which Parse returns, the returned rest is a suffix of the input, the message bytes are a contiguous part of the input that ends before rest starts, and at most one framing delimiter or length header separates them.", "quantifier": "every input, transport, EOF flag", "why_tests_cant": "slicing arithmetic over arbitrary inputs", "anchors": ["message-immutable.go:Parse", "message-immutable.go:parseReturn"]}
{"id": "C26", "title": "RFC 5425 Encode/PrefixStrip round trip", "statement": "For every payload d and tail with at least 20 bytes in total, PrefixStrip(Encode(d)+tail, eof) = (d, tail, nil); Encode(d) is the decimal length of d, one space, d.", "quantifier": "every payload and tail", "why_tests_cant": "unbounded payload", "anchors": ["transport.go:tRFC5425.Encode", "transport.go:tRFC5425.PrefixStrip"]}
{"id": "C27", "title": "Delimiter framing round trip", "statement": "For LF (and NUL) transports and every payload without the delimiter that is followed by its delimiter, SuffixStrip(Encode(d)+tail) = (d, tail, nil) for non-empty Encode; if the input has no delimiter SuffixStrip returns the whole input with a nil rest, and at EOF LF reports ErrTransportIncomplete while NUL reports success; two different payload lists never encode to the same stream.", "quantifier": "every payload, tail and EOF flag", "why_tests_cant": "unbounded payload", "anchors": ["transport.go:tLFEnded", "transport.go:tZeroEnded"]}
{"id": "C28", "title": "RFC 5425 length header is validated", "statement": "For an input of at least 20 bytes: no space or a leading space gives ErrTransportNoHeader; a first word that is not a decimal 64-bit integer gives ErrTransportInvHeader; a length larger than the remaining bytes asks for more data (or reports truncation at EOF); a negative length, or one that overflows, panics (C23); otherwise exactly that many bytes are returned.", "quantifier": "every input and every header word", "why_tests_cant": "integer parsing and 64-bit overflow", "anchors": ["transport.go:tRFC5425.PrefixStrip"]}
{"id": "C29", "title": "Exactly when a complete RFC 5425 frame is delivered", "statement": "When a complete RFC 5425 frame is at the start of the buffer, PrefixStrip returns it if and only if the buffer holds at least 20 bytes; otherwise it asks for more data, even at EOF. (The expectation that a complete frame of any size is delivered as soon as it is available is false for frames below 20 bytes, and such valid frames exist.)", "quantifier": "every frame", "why_tests_cant": "boundary on small frames", "anchors": ["transport.go:tRFC5425.PrefixStrip"]}
{"id": "C30", "title": "RFC 5425 stream reassembly is independent of read boundaries", "statement": "For every list of payloads framed with RFC 5425 whose last frame has at least 20 bytes, and every way of cutting the stream in reads (empty reads and reads with errors other than EOF included), the receiver delivers exactly one (message, error) pair per payload, in order, equal to Parse(payload, nil), and the errors of the reads; at every moment before, it has delivered the pairs of the complete frames (as soon as 20 bytes are buffered). (Without the condition on the last frame the claim is false.)", "quantifier": "every payload list and every segmentation", "why_tests_cant": "exponentially many segmentations, unbounded streams", "anchors": ["listener.go:Receiver.tokenize", "message-immutable.go:Parse", "transport.go:tRFC5425"]}
{"id": "C31", "title": "Exactly which frame sizes the receiver makes progress on", "statement": "With frames of at most 500 bytes the goroutine of a connection always has room to read at least one more byte until the whole stream is received, whatever the read boundaries. A frame partly received is ever delivered if and only if it fits in the current length of the read buffer, and 500 is the exact bound: for every longer frame there is a history of valid frames after which it is never delivered and the goroutine reads empty slices forever. (The expectation that frames up to 64 KiB are received is false.)", "quantifier": "every frame size and segmentation", "why_tests_cant": "depends on where a frame falls in a sliding 64 KiB window", "anchors": ["listener.go:Receiver.tokenize"]}
{"id": "C32", "title": "A malformed RFC 5425 payload does not disturb its neighbours", "statement": "A well-framed payload that is not a syslog message yields exactly one pair with a non-nil error and the messages before and after it are delivered unchanged.", "quantifier": "every position of every malformed payload in every stream", "why_tests_cant": "combination of payloads and segmentations", "anchors": ["listener.go:Receiver.tokenize"]}
{"id": "C33", "title": "Exactly when a malformed line blocks a LF/NUL stream", "statement": "A LF or NUL framed connection never delivers anything again, whatever it receives, if and only if the bytes it keeps start with an empty word among the six header fields, or have a structured data field that is a single byte other than '-', or one with a ']' that is neither escaped nor after a quote; it then consumes input without any error. Otherwise at most 15 more bytes can make it deliver a message. A malformed line without space is glued to the message that follows and the result is delivered without error. (The expectation that messages after a malformed line are delivered is false.)", "quantifier": "every malformed line", "why_tests_cant": "needs a history: malformed then well-formed", "anchors": ["listener.go:Receiver.tokenize", "message-immutable.go:Parse"]}
{"id": "C34", "title": "Exactly when LF/NUL streams deliver every message sent", "statement": "For every sequence of messages without structured data, with text that does not contain the delimiter, sent with the LF or NUL transport, and every way of cutting the stream in reads: if no read stops just after the '-' that stands for the structured data of a message, every message is delivered in order, without error, with the same fields; otherwise the process crashes. If messages may also have structured data (free of the delimiter, with a text whose ']' are escaped), every message is delivered, in order, without error, with the same fields, if and only if no read stops just after the '-' or after one of the structured data elements of a message and, after each message with structured data, some read stops where what has been read beyond it contains no unescaped ']' and does not end with ']'; when only the first condition fails the process crashes. In particular such messages are delivered if each read is exactly one frame, and two of them in one read are delivered as one message. (The expectation that every sequence is delivered whatever the read boundaries is false.)", "quantifier": "every message sequence and every segmentation", "why_tests_cant": "messages influence each other inside one read buffer", "anchors": ["listener.go:Receiver.tokenize", "message-immutable.go:Parse", "transport.go:tLFEnded", "transport.go:tZeroEnded"]}
{"id": "C35", "title": "A received message is immutable", "statement": "The bytes of a MessageImmutable delivered by Receive never change because of data received later on the same connection.", "quantifier": "every later sequence of reads", "why_tests_cant": "messages alias the receive buffer; needs all later reads", "anchors": ["listener.go:Receiver.tokenize", "message-immutable.go:MessageImmutable"]}
{"id": "C36", "title": "Exactly which undecodable input is reported", "statement": "For every transport and every sequence of reads, the bytes received are the concatenation of the pieces delivered (a line and its delimiter, or a RFC 5425 frame whose payload decodes to the pair delivered) and a rest; the only errors seen are those of the reads and, for RFC 5425 only, the decoding error of a complete frame. An unterminated last line, a frame cut by the end of the connection and everything after a RFC 5425 length header that is not a number are dropped silently. (The expectation that undecodable bytes are always reported is false.)", "quantifier": "every undecodable input", "why_tests_cant": "silent drop is the absence of an event on every schedule", "anchors": ["listener.go:Receiver.tokenize"]}
{"id": "C37", "title": "Exactly when the goroutine of a connection ends", "statement": "The goroutine of a connection ends if and only if a read reports EOF (or decoding crashes); a connection whose reads keep failing with another error is read forever, each read adding one error to the error channel and changing nothing else. In a Receiver, a connection is never read again after EOF, and its goroutine ends once everything it had read is sent. (The expectation that a read error ends the connection is false.)", "quantifier": "every history of reads", "why_tests_cant": "needs an unbounded history", "anchors": ["listener.go:Receiver.tokenize"]}
{"id": "C38", "title": "Datagram adapter reads are the exact byte stream", "statement": "Whatever the sizes of the buffers given to successive reads on a unixgram connection, the concatenation of the bytes returned is the concatenation of the datagrams received, nothing lost, duplicated or reordered, and each read returns at most the buffer size. The same holds of what the goroutine of the receiver gets, whatever room it has for each read.", "quantifier": "every datagram sequence and every read size sequence", "why_tests_cant": "all interleavings of sizes", "anchors": ["listener-unixdgram.go:fakeConn.Read"]}
{"id": "C39", "title": "Exactly when shutdown or accept errors crash a receiver", "statement": "The process crashes exactly at: a second End; the start of the goroutine of an Accept that returned no connection; a pair sent by a connection after End closed the pipeline; a decoder panic on the bytes read by a connection. Otherwise, in every execution, it never crashes. After End nothing happens until Accept returns (on a unix datagram listener whose second Accept has started: never). (The expectation that End with open connections, or an Accept error, is safe is false.)", "quantifier": "every interleaving of accepts, deliveries and End", "why_tests_cant": "schedules", "anchors": ["listener.go:Receiver.runQueue", "listener.go:Receiver.End", "listener-unixdgram.go:unixgramReceiver.Accept"]}
{"id": "C40", "title": "Receive returns each delivered pair once, in order per connection", "statement": "For every interleaving of connection goroutines and Receive calls, each pair produced by a connection is returned by at most one Receive, pairs of one connection are returned in production order, never more than the queue capacity is buffered, and after the pipeline is closed and drained Receive returns false.", "quantifier": "every schedule", "why_tests_cant": "schedules", "anchors": ["listener.go:Receiver.Receive", "listener.go:NewReceiver", "listener.go:Receiver.tokenize"]}
{"id": "C41", "title": "No byte is lost, duplicated or reordered by the sender", "statement": "At every moment, the bytes accepted by the connections in the order they were written followed by the bytes still queued are exactly the concatenation of the frames of all successful Sends, in Send order.", "quantifier": "every interleaving of sends, ticks, End, connection failures and partial writes", "why_tests_cant": "schedules and failure points", "anchors": ["connector.go:Sender.Send", "connector.go:Sender.flushQueue", "connector.go:Sender.runQueue"]}
{"id": "C42", "title": "End flushes everything sent before it", "statement": "When End returns, every frame whose Send completed before End was called has been accepted in full by connections. End does not return while something is queued and the network accepts nothing; from every state after End is called, if Connect and the writes now succeed and the error channel is read, End returns, or crashes if there is neither a connection nor a frame to send.", "quantifier": "every schedule and every failure history", "why_tests_cant": "schedules and failure points", "anchors": ["connector.go:Sender.End", "connector.go:Sender.runQueue"]}
{"id": "C43", "title": "Exactly when a Sender crashes", "statement": "In every execution the process crashes exactly when End is called a second time, or when End reaches its final close with no current connection, that is when as many connections were given up after a write error as were opened. So End crashes on a sender that never sent and never ticked, and after the loss of the connection with nothing left to send. (The expectation that End is safe on an idle sender is false.)", "quantifier": "every schedule", "why_tests_cant": "depends on whether a tick happened first", "anchors": ["connector.go:Sender.runQueue"]}
{"id": "C44", "title": "Exactly when each connection carries whole frames", "statement": "The connections in order carry consecutive pieces of the stream of frames. If every failing write stops between two frames, each connection carries whole frames, apart from one in progress on the current connection; a write that fails inside a frame makes the next connection start with the rest of that frame. (The expectation that each connection carries whole frames is false.)", "quantifier": "every partial write and reconnection", "why_tests_cant": "failure point inside any frame", "anchors": ["connector.go:Sender.flushQueue"]}
{"id": "C45", "title": "The error channel protocol is safe", "statement": "The sender never writes to the error channel after closing it, closes it exactly once, at most one error is buffered, and errors come out in the order they happened.", "quantifier": "every schedule", "why_tests_cant": "schedules", "anchors": ["connector.go:Sender.flushQueue", "connector.go:Sender.runQueue"]}
{"id": "C46", "title": "Exactly when Send blocks indefinitely", "statement": "Send waits only for the lock, held during a write to the network and while the error of a write is reported; it is blocked forever unless the user reads the error channel if and only if two errors of the network are unread and the last one is that of a write. (The expectation that Send never blocks indefinitely is false: two unread errors are enough.)", "quantifier": "every schedule and failure history", "why_tests_cant": "schedules", "anchors": ["connector.go:Sender.Send", "connector.go:Sender.flushQueue"]}
{"id": "C47", "title": "Connections are opened one at a time; exactly which are released", "statement": "A new connection is opened only when none is current, writes go to the last one opened, at most one is current. When End returns exactly the last connection opened has been closed; one connection per reported write error is never closed, so all are released if and only if no write failed. (The expectation that End releases all connections is false.)", "quantifier": "every failure history", "why_tests_cant": "failure histories", "anchors": ["connector.go:Sender.flushQueue", "connector.go:Sender.runQueue"]}
{"id": "C48", "title": "What Send and End do after End", "statement": "From the moment End's goroutine has found the queue empty nothing more is written, and a Send returns nil all the same, its frame staying queued forever; a second End always panics. (The expectation that a Send after End is written or reported, and that End can be called twice, is false.)", "quantifier": "every schedule", "why_tests_cant": "schedules", "anchors": ["connector.go:Sender.Send", "connector.go:Sender.End"]}
{"id": "C49", "title": "A failing message is rejected as a whole", "statement": "Send returns an error exactly when the message cannot be encoded and then nothing is queued; otherwise it returns nil and exactly one frame, the transport encoding of the message, is appended to the queue.", "quantifier": "every message and queue state", "why_tests_cant": "every message and state", "anchors": ["connector.go:Sender.Send"]}
{"id": "C50", "title": "Severity filter", "statement": "For a Syslog created with minPriority, Channel(sev) logs if and only if the severity of sev is numerically at most that of minPriority; otherwise it is the null channel. The priority of a logged message is facility(minPriority)|severity(sev).", "quantifier": "every minPriority and every sev", "why_tests_cant": "all pairs of values", "anchors": ["syslog.go:New", "syslog.go:Syslog.Channel"]}
{"id": "C51", "title": "The null channel has no effect", "statement": "Write on a null channel returns (len(d), nil) and neither Write, Log, nor anything derived from it by AppName, Msgid or Logger ever queues a frame.", "quantifier": "every argument and every derivation sequence", "why_tests_cant": "derivation sequences", "anchors": ["channel.go:devnull"]}
{"id": "C52", "title": "A channel write queues one message carrying the channel's context", "statement": "Write(d) on a logging channel queues exactly one frame: the encoding of the message with the channel's priority, host, app name, pid and msgid, no structured data, and d without trailing white space; it returns (len(d), nil). Log(d, sd...) queues exactly one such frame with the structured data if every element encodes; otherwise nothing is queued and nothing is reported, or it panics, as the first element that does not encode. Print on a Logger of the channel queues the message of prefix, caller (debug channels only) and text. (The expectation that Log always queues is false.)", "quantifier": "every channel state, text and structured data", "why_tests_cant": "unbounded contexts", "anchors": ["channel.go:msgChannel.Write", "channel.go:msgChannel.Log"]}
{"id": "C53", "title": "AppName composition", "statement": "AppName(sup) on a channel with app name '-' gives the sanitised sup, otherwise the sanitised app + '/' + sup; all other context is kept. A chain of AppName calls yields the sanitised '/'-joined path cut to 48 bytes, leading names that are empty or '-' not counting on a channel named '-'.", "quantifier": "every chain of calls", "why_tests_cant": "chains of arbitrary length", "anchors": ["channel.go:trueChannel.AppName"]}
{"id": "C54", "title": "Exactly which derived channels log", "statement": "A sequence of AppName and Msgid calls on a channel obtained from a Syslog gives a logging channel if and only if nothing is derived after a Msgid; AppName or Msgid of a channel returned by Msgid is the null channel, whose writes report success. (The expectation that deriving a logging channel gives a logging channel is false.)", "quantifier": "every derivation sequence", "why_tests_cant": "order of calls matters", "anchors": ["channel.go:trueChannel.Msgid", "channel.go:msgChannel"]}
{"id": "C55", "title": "Exactly when channels carry valid app names", "statement": "A message queued through channels obtained from New, SubSyslog, Channel, AppName and Msgid has valid header words if and only if the '/'-joined path of the names given to New (sanitised) and SubSyslog is a valid word of at most 48 bytes or AppName was called on the channel. (The expectation that it always has is false: the name given to SubSyslog is not sanitised, and spaces in it forge the following fields.)", "quantifier": "every derivation history with arbitrary names", "why_tests_cant": "derivation histories", "anchors": ["syslog.go:New", "syslog.go:Syslog.SubSyslog", "channel.go:trueChannel.AppName"]}
{"id": "C56", "title": "Channel caching", "statement": "On a Syslog returned by New, TestMode affects channels if and only if it is called before the first Channel call. The channels of a SubSyslog have the host and pid its parent had when SubSyslog was called (the test ones if and only if TestMode had been called on it or an ancestor by then, even after Channel), and TestMode on it changes none of them; repeated Channel calls return the same context.", "quantifier": "every history of TestMode, Channel and SubSyslog calls", "why_tests_cant": "histories", "anchors": ["syslog.go:Syslog.Channel", "syslog.go:Syslog.TestMode", "syslog.go:Syslog.SubSyslog"]}
{"id": "C57", "title": "Exactly which channel concurrent Channel calls return", "statement": "When several goroutines call Channel on a fresh Syslog, in every interleaving each call returns a channel without panic or block: the logging channel if and only if its element had been stored in the table the call found, the null channel otherwise. Once a table exists and no call is initialising it, every later call returns the right channel. (The expectation that every call gets a logging channel for an enabled severity is false, even for the call that filled a table.)", "quantifier": "every interleaving", "why_tests_cant": "lazy initialisation race", "anchors": ["syslog.go:Syslog.Channel"]}
{"id": "C58", "title": "Exactly what Dial and GuessListener accept and build", "statement": "Dialer.Dial returns an error if and only if the network is none of stdio, local, unix, unixgram, tcp, tcp4, tcp6; it uses the given transport, or NUL framing for local and unix networks and LF framing otherwise; the flush ticker is off if and only if FlushDelay is at most one millisecond; Dial is Dialer.Dial with 500 ms. The connector is the one of the network: each Connect of stdio gives stderr or stdout or always the same error, an empty tcp address always fails. GuessListener picks the listener of the network and refuses any other network. (The expectation that Dial reports an address that makes no sense is false: each Connect fails.)", "quantifier": "every network string, address, transport and delay", "why_tests_cant": "all strings", "anchors": ["dialer.go:Dialer.Dial", "listener-guess.go:GuessListener", "connector-fd.go:StdioConnector", "connector-tcp.go:TCPConnector", "listener-tcp.go:TCPListener"]}
{"id": "C59", "title": "Structured data value tokens", "statement": "NextSDValue accepts exactly a double-quoted string in which '\"' and ']' occur only escaped, returns the raw text between the quotes and the bytes after the closing quote; it never panics.", "quantifier": "every byte slice", "why_tests_cant": "escape automaton over unbounded inputs", "anchors": ["sdata/tokens.go:NextSDValue"]}
{"id": "C60", "title": "Structured data name and header tokens", "statement": "NextSDName, NextHeader and NextNonSpace return the longest prefix before '=' / before the first space / of spaces, reject every input with a forbidden byte in it, never panic, and token plus rest plus separator is the input.", "quantifier": "every byte slice", "why_tests_cant": "unbounded inputs", "anchors": ["sdata/tokens.go:NextHeader", "sdata/tokens.go:NextSDName", "sdata/tokens.go:NextNonSpace"]}
{"id": "C61", "title": "Unknown structured data survives decode and encode", "statement": "If an element decodes as unknown structured data then encoding the result and decoding it again gives the same result, and the encoding equals the input up to runs of spaces between parameters.", "quantifier": "every element", "why_tests_cant": "unbounded elements", "anchors": ["sdata/sd-unknown.go:unknownDef.Found", "sdata/sd-unknown.go:unknownSD.Marshal5424"]}
{"id": "C62", "title": "Generic structured data values cannot break out of their quotes", "statement": "For every identifier and keys that are valid names and for every values (any bytes), encoding a map and decoding it yields exactly the keys in sorted order, each with the escaped value, and un-escaping gives the original value; likewise encoding a struct with exported fields (nested pointers, slices and marshalers included) and decoding it yields exactly one parameter per non-empty leaf value, in declaration order, named after its field and un-escaping to that value.", "quantifier": "every map with arbitrary byte values", "why_tests_cant": "injection: every byte sequence in values", "anchors": ["sdata/structured-data-encoder.go:encodeState.PrefixedWrite", "sdata/structured-data-encoder.go:newMapEncoder"]}
{"id": "C63", "title": "Map encoding is deterministic", "statement": "The encoding of a map does not depend on the map iteration order; keys appear in byte order.", "quantifier": "every map and every iteration order", "why_tests_cant": "iteration order is random at run time", "anchors": ["sdata/structured-data-encoder.go:newMapEncoder"]}
{"id": "C64", "title": "Struct encoding", "statement": "A struct is encoded as '[', its identifier, and in declaration order one ' name=\"escaped value\"' per exported non-empty field not tagged '-', and ']'; nil pointers are omitted, slices repeat the name once per element; arrays and unsupported kinds give an error and no output.", "quantifier": "every struct value in the supported kinds", "why_tests_cant": "recursive value shapes", "anchors": ["sdata/structured-data-encoder.go:newStructEncoder", "sdata/structured-data-encoder.go:newTypeEncoder", "sdata/structured-data-encoder.go:getName"]}
{"id": "C65", "title": "Exactly when encoding a structured data element crashes or yields nothing", "statement": "GenericSD(x).Marshal5424() panics exactly when x is a nil StructuredData interface, a map with interface-typed elements, a struct or map in which the first field or entry (in declaration or key order) that does not encode is an empty mandatory field, an unexported field or contains an interface-typed or nil-interface value or a StructuredData whose own Marshal5424 panics with something else than an error, or a value whose pointer type only is a StructuredData; when it returns bytes they are a bracketed element starting with the identifier, the bytes of x's own Marshal5424, or nothing for a nil map or nil pointer. (The expectation that it never crashes and never yields an empty element is false.)", "quantifier": "every value", "why_tests_cant": "kinds, nil maps, interface fields, mandatory tags, unexported fields", "anchors": ["sdata/sd-generic.go:genericSD.Marshal5424", "sdata/structured-data-encoder.go"]}
{"id": "C66", "title": "TimeQuality round trip", "statement": "An element decodes as a TimeQuality t if and only if it is '[timeQuality', space-preceded parameters named tzKnown or isSynced with value 0 or 1 or syncAccuracy with a decimal int64 value, ']', t is what the last parameter of each name says and t is consistent (synchronised implies zone known, accuracy implies synchronised); for every consistent TimeQuality with positive accuracy in int range (or none), decoding its encoding gives it back; encoding an inconsistent one is ErrInvalidTimeQuality.", "quantifier": "every TimeQuality; every element text", "why_tests_cant": "unbounded integers and texts", "anchors": ["sdata/timequality/tq.go:TimeQuality.Marshal5424", "sdata/timequality/tq.go:tqdef.Found"]}
{"id": "C67", "title": "Exactly when encoding a TimeQuality panics", "statement": "TimeQuality.Marshal5424 panics if and only if the value is consistent and has an accuracy that is zero or negative. (The expectation that it returns for every value is false; such a value can be decoded from the network and relaying it panics.)", "quantifier": "every value", "why_tests_cant": "numeric corner cases", "anchors": ["sdata/timequality/tq.go:TimeQuality.Marshal5424"]}
{"id": "C68", "title": "Exactly when decoding structured data panics", "statement": "StructuredData() on a successfully parsed message returns, or panics because for one of its elements a registered decoder panics before any accepts it. The time quality decoder panics exactly on an element with fewer than 11 bytes between its '[' and the end of the buffer's capacity, the generic decoder of identifier id exactly when fewer than len(id) bytes are there or id is the element's content followed by ']' and the bytes after it. So StructuredData() never panics when neither is registered and the decoders of other packages do not panic, nor with the time quality decoder when the buffer has 10 spare bytes. (The expectation that it never panics is false: a short element with the package's time quality decoder registered.)", "quantifier": "every parsed message", "why_tests_cant": "depends on slice capacity", "anchors": ["sdata/timequality/tq.go:tqdef.Found", "message-immutable.go:MessageImmutable.StructuredData", "sdata/list.go:Parse"]}
{"id": "C69", "title": "Registry", "statement": "Register keeps the first decoder registered under a name and returns its argument; RegisterGroup equals successive Register calls; Parse returns the result of a registered decoder that accepts the element if any, else the unknown decoding; if at most one decoder accepts, the result does not depend on the iteration order.", "quantifier": "every registration history, element and iteration order", "why_tests_cant": "map iteration order", "anchors": ["sdata/list.go:Register", "sdata/list.go:RegisterGroup", "sdata/list.go:registryT.Found"]}
{"id": "C70", "title": "Structured data list encoding", "statement": "An empty list encodes to '-', a non-empty one to the concatenation of its elements' encodings in order.", "quantifier": "every list", "why_tests_cant": "unbounded lists", "anchors": ["sdata/list.go:List.Marshal5424"]}
{"id": "C71", "title": "Exactly when deriving a message changes another one", "statement": "No list or message ever changes as long as no non-empty structured data list is extended twice. In general one Add(x) on a list of n elements changes what another list t shows if and only if the list had spare capacity, t shares its array and is longer than n, and the element t shows at position n differs from x; the operand itself and the lists no longer than it never change. (The expectation that deriving a message never changes another is false: two messages derived from one with spare capacity overwrite each other's structured data.)", "quantifier": "every derivation tree", "why_tests_cant": "backing array sharing depends on capacities", "anchors": ["sdata/list.go:List.Add", "message.go:Message.StructuredData"]}
{"id": "C72", "title": "Struct tag parsing", "statement": "parseTag splits a tag at commas into a name and options; Contains is membership; a tag name is used as parameter name iff it is non-empty and made of letters, digits and the allowed punctuation.", "quantifier": "every tag", "why_tests_cant": "unbounded strings", "anchors": ["sdata/structured-data.go:parseTag", "sdata/structured-data.go:tagOptions.Contains", "sdata/structured-data.go:isValidTag"]}
{"id": "C73", "title": "Timestamp round trip to the microsecond", "statement": "For every time with year 0..9999 and a whole-minute offset below 24h, the encoded timestamp parses back to the same wall clock and offset with the nanoseconds truncated to microseconds, has no space, at most 6 fractional digits and no trailing zero fraction.", "quantifier": "every such time", "why_tests_cant": "continuous domain", "anchors": ["message.go:RFC5424TimeStamp", "message-immutable.go:MessageImmutable.TimeStamp"]}
{"id": "C74", "title": "Epoch and Delta arithmetic: exactly when it is exact", "statement": "Every text argument counts as exactly one 64-bit integer: the decimal integer it is, the nearest bound when it is out of range (or when its leading digits already exceed 64 unsigned bits), zero when malformed. Epoch(sec,nsec) sets the timestamp to exactly sec*1e9+nsec nanoseconds after the epoch as long as the sum stays in the range of time.Time; Delta(boot,sec,nsec) is boot plus exactly that duration if and only if sec*1e9+nsec fits an int64; the zone is the one in force at that instant. (The expectation that Delta is exact for every decimal argument is false.)", "quantifier": "every pair of decimal strings", "why_tests_cant": "64-bit overflow", "anchors": ["message.go:epochToTs", "message.go:deltaBootToTs"]}
{"id": "C75", "title": "Year guess of Timestamp", "statement": "Timestamp(stamp) keeps month, day and time of the stamp and picks the current year, or the previous year if and only if it is January now and the stamp is in December (a February 29 in a picked year that is not a leap year becomes March 1); an unparsable stamp gives January 1, 00:00:00 UTC of the current year.", "quantifier": "every stamp and every current date", "why_tests_cant": "needs control of the clock", "anchors": ["message.go:stampToTs"]}
{"id": "C76", "title": "End to end delivery over RFC 5425", "statement": "For every list of messages that can be decoded from their own encoding (C14: valid fields, structured data that the receiver's decoders give back, and if there is any a text with only escaped ']') and can be framed, sent with RFC 5425 framing through a sender whose writes fail, if at all, only between two frames, and received with any read boundaries and any interleaving with other connections: the connections together deliver, in order and without error, one message per message sent, whose String() is its encoding and whose Writable() is the message sent with its time at the microsecond. At every moment on a connection that never failed a prefix has been delivered, and with frames of at most 500 bytes the receiver always has room to read on.", "quantifier": "every message list, every sender schedule, every segmentation", "why_tests_cant": "product of schedules and segmentations", "anchors": ["connector.go:Sender", "listener.go:Receiver", "transport.go:tRFC5425"]}
{"id": "C77", "title": "Exactly which memory Encode overwrites", "statement": "Transport.Encode(d) returns the frame. With the NUL and LF transports, if d has spare capacity, exactly the byte after d in its array is overwritten, with the delimiter; nothing else is, and never with RFC 5425, never a byte of d, never without spare capacity. (The expectation that it does not modify memory the caller can see is false.)", "quantifier": "every slice with any spare capacity", "why_tests_cant": "depends on spare capacity", "anchors": ["transport.go:tZeroEnded.Encode", "transport.go:tLFEnded.Encode", "transport.go:tRFC5425.Encode"]}
{"id": "C79", "title": "What a local connector dials", "statement": "Connect on LocalConnector(network, address) dials, in order until one answers: only (network, address) if both are given; the address as unix then unixgram if only the address is given; otherwise /var/run/syslog, /var/run/log, /dev/log as unix then as unixgram. After the first success every later Connect dials the network and address found and nothing else. (The expectation that LocalConnector(\"unixgram\", \"\") never uses a stream socket is false.)", "quantifier": "every network and address, every behaviour of the sockets, every sequence of Connects", "why_tests_cant": "depends on the file system and on the history of the connector", "anchors": ["connector-local.go:localConnector.Connect", "connector-local_unix.go:localConnector.osGuess", "connector-local_unix.go:localConnector.tryConnect"]}
{"id": "C80", "title": "What a TCP connector dials, and when it panics", "statement": "Connect on TCPConnector(network, address) accepts exactly the addresses host:port and [host]:port, with port 514 when the port is empty; it dials the addresses of the host that the network allows (tcp4: IPv4, tcp6: IPv6) in order until one answers and reports the last error otherwise; it panics if and only if the lookup succeeds with no address that the network allows. (The expectation that Connect never panics is false.)", "quantifier": "every address text, every resolver and network behaviour", "why_tests_cant": "unbounded texts, depends on name resolution", "anchors": ["connector-tcp.go:tcpConnector.Connect", "connector-tcp.go:TCPConnector"]}
{"id": "C81", "title": "What binding a unix listener does to the path", "statement": "UnixListener and UnixgramListener listen on a free path without removing anything; while the path is in use and exists they remove it and try again, so whatever removable is there (a regular file, the socket of a live listener) is deleted and replaced; if it cannot be removed the call never returns. Any other error is returned. (The expectation that only an unused socket is removed is false.)", "quantifier": "every behaviour of listen, stat and remove, and every state of the path", "why_tests_cant": "needs unbounded retries and other processes", "anchors": ["listener-unix.go:UnixListener", "listener-unixdgram.go:UnixgramListener"]}
{"id": "C82", "title": "A Sender that cannot connect", "statement": "If no Connect succeeds, nothing is ever written, every frame sent stays in memory and End never returns; that is every execution of a Sender dialled on stdio with another address than stderr: and stdout:, or on tcp with an empty address, which Dial accepts. A Sender dialled on stderr: or stdout: never has a connection error.", "quantifier": "every schedule and every environment", "why_tests_cant": "unbounded executions", "anchors": ["connector.go:Sender", "connector-invalid.go:invalidConnector", "dialer.go:Dialer.Dial", "connector-fd.go:StdioConnector"]}
{"id": "C78", "title": "Whole logging programs: histories, isolation and queues", "statement": "For every sequence of New, TestMode, Channel, SubSyslog, AppName, Msgid, Write, Log and Logger-Print calls on any of the objects obtained so far, in any order: each Syslog is what the calls of its own ancestry make of it and each Channel what that Syslog gave at the moment Channel was called, then derived; calls on other objects have no influence, and a Channel once obtained never changes. The frames in the queue of each Sender are exactly those of the messages submitted to it, in the order of the calls, a message that does not encode leaving no trace; every logging call submits at most one message. The program panics exactly at a logging call whose message makes the encoder panic, or encodes and goes to a nil Sender or to one without a transport.", "quantifier": "all sequences of calls, all objects, all Senders and transports, all times, texts and structured data", "why_tests_cant": "the interleavings of calls over a growing set of shared objects are unbounded, and interference between objects shows only for particular interleavings", "anchors": ["syslog.go:New", "syslog.go:TestMode", "syslog.go:Channel", "syslog.go:SubSyslog", "channel.go:AppName", "channel.go:Msgid", "channel.go:Write", "channel.go:Log", "channel.go:Logger", "connector.go:Send"]}
{"id": "C83", "title": "From a logging program to the receiving program", "statement": "For every logging program as in C78 whose Sender uses RFC 5425 framing, every schedule of that Sender in which write failures fall between frames and the queue is emptied, and every schedule of a Receiver reading those connections in any pieces to the end: the messages received, connection after connection, are exactly the messages logged to that Sender, in order, each with its own encoding, no error, and Writable() equal to the message with its time at the microsecond; provided the messages can be decoded, which is so when the program uses valid app names, years 0 to 9999 with whole-minute offsets, structured data in default form and no text with a bare closing bracket beside structured data.", "quantifier": "all logging programs, all schedules of Sender and Receiver, all fragmentations, all reconnections between frames", "why_tests_cant": "program, sender schedule, receiver schedule and fragmentation are all unbounded and independent", "anchors": ["syslog.go:New", "channel.go:Write", "channel.go:Log", "connector.go:Send", "connector.go:flushQueue", "listener.go:tokenize", "listener.go:Receive", "message-immutable.go:Parse", "message-immutable.go:Writable"]}
{"id": "C84", "title": "From Sender to Receiver with LF or NUL framing", "statement": "With LF or NUL framing, for every list of messages without structured data whose text does not contain the delimiter (and otherwise well formed), every schedule of the Sender whose write failures fall between frames and whose queue is emptied, and every schedule of a Receiver reading the connections in any pieces: each connection carries a consecutive group of the messages, and either no read of that connection stops just after the '-' of the structured data of one of its frames and the group is received whole, in order, each message with its own encoding and the same fields, or one does and the receiving process crashes. At every earlier moment what was received is exactly the messages whose frame has been read in full; with frames of at most 500 bytes the reading goroutine is never stuck. With messages that have structured data (no delimiter in their encoding), each group is received whole if and only if no read of its connection stops after the '-' or an element of the structured data of one of its frames and, after each frame with structured data, some read stops where what was read beyond it has only escaped ']' and does not end with ']'; and at every earlier moment the reading goroutine has delivered exactly the messages whose frame has been read in full, without crashing, if and only if this holds of the reads so far. (The expectation that delivery does not depend on how TCP cuts the stream is false: witness C84_every_segmentation_refuted.)", "quantifier": "all message lists of the stated form, all schedules of Sender and Receiver, all fragmentations of every connection, all reconnections between frames", "why_tests_cant": "fragmentation, schedules, reconnections and messages are unbounded and independent; the crash shows only for one cut in each frame", "anchors": ["connector.go:Send", "connector.go:flushQueue", "transport.go:T_LFENDED", "transport.go:T_ZEROENDED", "listener.go:tokenize", "message-immutable.go:Parse", "message-immutable.go:Writable"]}
{"id": "C85", "title": "From Senders to a Receiver over a unix datagram socket", "statement": "Over a unix datagram socket every frame is sent in one datagram of its own: whatever writes fail, the datagrams sent are the frames submitted, in order, without loss or duplicate, and the queue holds the remaining ones. A frame the socket keeps refusing holds back all later ones for ever and End never returns. A Receiver on that socket delivers, whatever errors the socket reports between datagrams, exactly the messages of the datagrams read so far, in order, each whole and without error, and is never stuck, provided frames fit in its buffer; with any number of senders, each sender's messages are received once each, in that sender's order. With RFC 5425 framing the frames may even be cut into datagrams or packed in them in any way: what was delivered at any moment is the messages of the first frames, and all of them after enough reads.", "quantifier": "all message lists, all Sender schedules and write failures, all interleavings of the datagrams of any number of senders, all socket errors, all Receiver schedules", "why_tests_cant": "failure patterns and interleavings of senders are unbounded", "anchors": ["connector-local.go:Write", "connector.go:flushQueue", "connector.go:End", "listener-unixdgram.go:Read", "listener-unixdgram.go:Accept", "listener.go:tokenize"]}
{"id": "C86", "title": "The registry of structured data identifiers under concurrency", "statement": "sdata.Parse, Register and RegisterGroup, called from any number of goroutines: the calls that have returned gave the results they would give made one after another in the order of their return (a group is registered as a whole; a decoder that panics makes Parse panic and releases the registry), each goroutine's calls return once each in the order it makes them, and no two critical sections overlap. As long as no identifier calls the package from its own Found or String, a call in progress can always go on and a critical section ends after at most one step more than there are identifiers to treat. An identifier from outside the package whose method calls back into the package blocks every goroutine for ever (witness C86_reentrance_refuted); the package's own identifiers never do.", "quantifier": "all schedules of any number of goroutines and calls, all identifiers, all iteration orders of the map", "why_tests_cant": "schedules of unboundedly many goroutines cannot be enumerated; race and deadlock depend on rare interleavings", "anchors": ["sdata/list.go:Found", "sdata/list.go:Parse", "sdata/list.go:Register", "sdata/list.go:RegisterGroup"]}
{"id": "C87", "title": "Relaying received messages", "statement": "The bytes a received message gives through String, WriteTo or MarshalText decode again to a message with the same content (priority, time, host, app name, proc id, message id, text and structured data) always when it was received with RFC 5425 framing or without a terminator; for LF and NUL framing exactly when what follows the six header fields is '-', or '- ' and a text, or has a space and does not end with ']'. WriteTo writes exactly those bytes in one Write and reports the writer's count and error. Message.String is the encoding of the message, and empty exactly when encoding fails. (The expectation that every message received can be relayed is false: witness C87_always_refuted.)", "quantifier": "all inputs to Parse, all framings, all writers, all messages", "why_tests_cant": "the messages that decode only because of what follows them in the stream are an unbounded family no test enumerates", "anchors": ["message-immutable.go:String", "message-immutable.go:WriteTo", "message-immutable.go:Parse", "message.go:String", "listener.go:Receive"]}
{"id": "C88", "title": "Which timestamps are understood", "statement": "MessageImmutable.TimeStamp of any message Parse returns is the date, time and offset its second field denotes when the field is YYYY-MM-DD 'T' clock, an optional fraction ('.' or ',' and digits, taken down to the nanosecond) and a zone ('Z' or an offset up to 24:60), with an existing calendar day and an hour of one or two digits; for every other field, among them '-', leap seconds and lower case letters, it is January 1st of the year 1. Every timestamp RFC 5424 allows is understood, and a field denotes one date only. Message.Timestamp: any stamp made of a month name in any case, spaces, a day of one or two digits that exists in a leap year, spaces, clock and optional fraction sets that date in the current year (in the previous one for December seen in January; February 29th of a common year becomes March 1st), any other string sets January 1st of the current year at midnight. (The expectation that only RFC 5424 timestamps are understood is false: witness C88_rfc5424_only_refuted.)", "quantifier": "all timestamp fields of all received messages, all stamp strings, all current times", "why_tests_cant": "the language of accepted strings is infinite and so is its complement", "anchors": ["message-immutable.go:TimeStamp", "message.go:Timestamp", "message.go:stampToTs"]}
{"id": "C89", "title": "MarshalSD, List.String and UnmarshalSD", "statement": "MarshalSD of a value whose type has a String method gives the bytes of GenericSD(value).Marshal5424, and empty bytes when that fails, so that an error is not distinguishable from an empty encoding; of a struct, or a map without empty key, whose type has none it gives bytes no receiver accepts as an element. List.String is '-' for the empty list, otherwise the concatenation of the elements' encodings, or empty when an element fails. UnmarshalSD never reads its data nor touches its target: it returns an error exactly when its target is not a non-nil pointer. (The expectation that UnmarshalSD decodes what MarshalSD wrote is false: witness C89_round_trip_refuted.)", "quantifier": "all Go values, all lists of structured data, all byte strings and targets", "why_tests_cant": "Go values are an infinite, nested family", "anchors": ["sdata/structured-data-encoder.go:MarshalSD", "sdata/list.go:String", "sdata/structured-data-decoder.go:UnmarshalSD"]}
{"id": "C90", "title": "A built message holds what the last call on each field stored", "statement": "Starting from CreateMessage, CreateWholeMessage or EmptyMessage and applying any sequence of builder calls, each field is what the last call naming it stores (the argument itself for times and priority, sanitised to its limit for host name, app name, procid and msgid, without trailing white space for the text, the machine's host name for LocalHost), or what the constructor stores if no call names it; structured data are the arguments of all StructuredData calls in order. Marshalled (without structured data, priority in 0..299, representable timestamp) and parsed, the accessors give back those values, the timestamp to the microsecond.", "quantifier": "every constructor call, every finite sequence of builder calls, every machine host name", "why_tests_cant": "histories of unbounded length over a dozen near-identical positional struct literals", "anchors": ["message.go:CreateMessage", "message.go:CreateWholeMessage", "message.go:EmptyMessage", "message.go:Message.Host", "message.go:Message.Epoch", "message.go:Message.Delta", "message.go:Message.Timestamp", "message-immutable.go:Parse"]}
{"id": "C91", "title": "What StructuredData() of a parsed message returns", "statement": "A message is accepted by Parse (without transport) exactly when it can be cut into six words, structured data elements and a rest, and it can be cut in one way only. StructuredData() returns, in the order of the elements, one value per element: that of the first registered decoder that takes it in the order of that lookup, or else that of the default decoder; elements nobody takes are silently left out, and a single element starting with '-' is not looked at. With no decoder registered the result is exactly the elements the default decoder accepts.", "quantifier": "every accepted input, every set and iteration order of registered decoders, every spare buffer content", "why_tests_cant": "unbounded inputs, arbitrary decoders and map iteration orders", "anchors": ["message-immutable.go:MessageImmutable.StructuredData", "message-immutable.go:Parse", "sdata/list.go:registry.Found", "sdata/sd-unknown.go:unknownDef.Found"]}
{"id": "C92", "title": "End comes to an end", "statement": "In every execution of a Sender the number of steps is bounded by a constant plus six times the number of ticks, Sends and network failures (nothing spins). Once End is called and until it has returned, a step that is none of these is possible; so after End, every schedule in which the user reads the errors, the network works and nobody sends stops within 15 steps with End returned, or crashed because there was no connection to close.", "quantifier": "every execution and every continuation", "why_tests_cant": "liveness: all schedules of goroutine, user and network", "anchors": ["connector.go:Sender.runQueue", "connector.go:Sender.flushQueue", "connector.go:Sender.End"]}
{"id": "C93", "title": "The header of what a Channel logs is determined by the calls that made it", "statement": "A Channel logs if and only if its severity is at or below the minimum given to New and it was made by calls of AppName followed by at most one Msgid. Its messages then have: the facility given to New and the severity asked; the host name of the machine, sanitised, and the process id - or localhost and 1234 when TestMode was called before the first Channel, or, for a SubSyslog, on an ancestor before SubSyslog; message id \"-\" or the one given, sanitised to 32 bytes; and as app name the one given to New, sanitised, then the SubSyslog names joined by slashes as they are, then the AppName names joined by slashes and sanitised to 48 bytes at each step (a name \"-\" being replaced). They go to the Sender given to New. Nothing else in the program matters.", "quantifier": "every program history of New, TestMode, Channel, SubSyslog, AppName, Msgid; all strings", "why_tests_cant": "all call histories", "anchors": ["syslog.go:New", "syslog.go:Syslog.SubSyslog", "syslog.go:Syslog.Channel", "channel.go:AppName", "channel.go:Msgid"]}
{"id": "C94", "title": "What a Receiver has read reaches the user, if the user takes it", "statement": "In every execution, the number of steps between two inputs (End, Accept or a Read returning) is bounded, Receives that return false aside: nothing spins. Where nothing is left to do, every pair decoded and every error of Read and Accept has been returned to the user, every connection is waiting for its network or finished, and the Receiver is waiting for a connection, or has closed its listener after End. So, without End, nil connection or decoder panic, every schedule delivers everything read so far. But with ten errors unread, a connection with another error is never read again, and after another error of Accept no connection is ever accepted and End has no effect, until the user reads one.", "quantifier": "every execution, schedule and continuation, any capacity and transport", "why_tests_cant": "liveness: all schedules of the goroutines, the user and the network", "anchors": ["listener.go:Receiver.runQueue", "listener.go:Receiver.tokenize", "listener.go:Receiver.Receive", "listener.go:NewReceiver"]}
{"id": "C95", "title": "Send is atomic for any number of goroutines; the only data race needs End", "statement": "Take the Sender step by step: each call of Send takes the lock, reads the queue, stores the extended queue and releases the lock in separate steps, the goroutine reads and stores the queue and the connection likewise, any number of goroutines interleaved. Every such execution has the network events, errors and queue of one in which Send and each write are single steps, and conversely. No byte is lost or duplicated; the frames of one goroutine are stored once each and in its order, but for that of a Send still under way. A Send waiting for the lock waits for a Send that can go on, or for the goroutine, which can go on unless the error channel is full. Two goroutines are about to access the queue or the connection, one to write it, exactly when the goroutine that End has asked to stop tests whether the queue is empty while a Send is about to store it; never before End is called.", "quantifier": "every number of goroutines, every interleaving of their memory accesses, every behaviour of the network", "why_tests_cant": "all interleavings of memory accesses; a race detector sees the schedules that ran", "anchors": ["connector.go:Sender.Send", "connector.go:Sender.flushQueue", "connector.go:Sender.runQueue", "connector.go:Sender.End"]}
{"id": "C96", "title": "The test helpers for structured data accept exactly what they claim", "statement": "DoTest of TestValid(text, object, encoding) against the time quality identifier returns nil exactly when the text says that object (any order and repetition of parameters, any spaces), the object is consistent with a positive accuracy and the third argument is its canonical encoding; it does so for the encoding of every such object. TestInvalidUnmarshal passes exactly when the text says no consistent time quality and is long enough not to panic. TestInvalidMarshal passes exactly for inconsistent objects with ErrInvalidTimeQuality, and for encodable ones with nil. Against the registry, where no identifier accepts the text, TestValid passes exactly for the unknown structured data and their canonical encoding. Generic structured data cannot be tested: TestValid never passes for them and TestInvalidMarshal passes with an expected error only if it is one a StructuredData inside the value panicked with. An empty text panics.", "quantifier": "every text, object, expected encoding and error, every registry", "why_tests_cant": "the helpers are themselves what tests rely on: a helper that accepts too much makes every test built on it void", "anchors": ["sdata/exported-testing.go:TestValid", "sdata/exported-testing.go:TestInvalidUnmarshal", "sdata/exported-testing.go:TestInvalidMarshal", "sdata/exported-testing.go:validTest.DoTest", "sdata/list.go:registryT.Found"]}
{"id": "C97", "title": "Many goroutines logging through one Sender: the receiver gets an interleaving", "statement": "For any number of goroutines calling Send on the same Sender, each with its own messages, interleaved memory access by memory access with each other and with the Sender's goroutine, whatever writes fail between frames: once every Send has stored its frame and the queue is empty, what a Receiver reading the connections in any pieces delivers, connection after connection, is an interleaving of the messages of the goroutines: each message once, whole, in the order of its goroutine, and nothing else (RFC 5425 framing; with LF or NUL framing the same, connection by connection, unless a read stops just after the '-' of a frame, and then the receiver crashes). If End is called after the last Send has stored its frame and End has returned, the queue is empty; and if the Receiver is left with nothing to do, the user has received them all.", "quantifier": "every number of goroutines, list of messages each, interleaving of their memory accesses with the Sender, network failures between frames, read boundaries, Receiver schedule", "why_tests_cant": "a test runs a few interleavings of a few goroutines", "anchors": ["connector.go:Sender.Send", "connector.go:Sender.flushQueue", "connector.go:Sender.End", "listener.go:Receiver", "transport.go:Transport"]}
{"id": "C98", "title": "What one tick does", "statement": "Whatever happened before, once a tick is taken and the network does not fail, everything sent before the tick is written by the time the Sender can take the next tick or End returns, whatever Sends, ticks, End and error reads happen meanwhile. If moreover nobody sends, every schedule stops within 15 steps, with everything written and nothing left in the queue. A Sender with nothing left to do is waiting for a tick and End was not called, or End has returned.", "quantifier": "every history before the tick (including failures and partial writes), every schedule after it", "why_tests_cant": "a test sees one schedule, with sleeps; this is about all of them", "anchors": ["connector.go:Sender.runQueue", "connector.go:Sender.flushQueue", "connector.go:Sender.End"]}
{"id": "C99", "title": "Which error Parse reports, and where", "statement": "Parse refuses an input with exactly one error, determined by the input: no data is a ParseError at 0; an empty header word is ErrPos0 and a missing one ErrPosNotFound; after the six words, nothing or a single byte that is not a dash is a ParseError at that place, a space there is ErrPos0, no space at all is ErrPosNotFound, a lone byte other than a dash is a ParseError (empty structured data); among structured data the first closing bracket that follows neither a backslash nor a double quote decides: ErrPos0 when it comes first or just after another one, else a ParseError at the position of the byte before it; and ErrImpossible when the input ends with an escaped bracket. Conversely each of these inputs gives that error. On a delimited transport the whole buffer is judged this way, on RFC 5425 the content of the first frame, what follows the frame being handed back.", "quantifier": "every byte string, both values of atEOF, the three transports", "why_tests_cant": "the classification is a statement about every byte string, and its converse about every rejection; examples only show some members of each class", "anchors": ["message-immutable.go:Parse", "message-immutable.go:searchNextSep", "message-immutable.go:dispatchError", "errors.go:ParseError"]}
{"id": "C100", "title": "The text of an error is one printable line and loses nothing", "statement": "The text of an error returned by Parse is made of printable characters only, on one line, whatever bytes were received (no line feed, no control character, no broken UTF-8), so it can be logged safely. The text of a ParseError gives back the received bytes, the position and the message: two different ones never have the same text, and no two kinds of errors share a text.", "quantifier": "every byte string received, every position and message", "why_tests_cant": "a test would have to try every byte string (and every pair of them)", "anchors": ["errors.go:ParseError.Error", "errors.go:ErrPos0", "message-immutable.go:Parse"]}
{"id": "C101", "title": "Concurrent Sends: nothing spins, nothing gets stuck, a tick flushes", "statement": "Take the Sender step by step with any number of goroutines in Send (as in C95). From any moment on, the number of steps is at most 47, plus 22 for each Send under way or begun, plus 18 for each tick and each network failure, whatever the interleaving. Where nothing but a new Send, a tick, End or a failure can happen, every Send has returned, and the Sender waits for a tick (End not having been called) or End has returned. Once a tick is taken and the network does not fail, every frame stored before the tick is written by the time the next tick can be taken or End returns, whatever Sends go on meanwhile. Once End is called, and if the network does not fail and nobody calls Send, End and every Send return within that number of steps, or the process crashes because the Sender has no connection to close.", "quantifier": "every interleaving of any number of goroutines and of the Sender's goroutine, every history of failures before", "why_tests_cant": "deadlocks and livelocks between goroutines are about all schedules; a test sees one", "anchors": ["connector.go:Sender.Send", "connector.go:Sender.flushQueue", "connector.go:Sender.runQueue", "connector.go:Sender.End"]}
{"id": "C102", "title": "What becomes of a priority that is any int", "statement": "A message can be given any int as priority. Marshal5424 of a priority p that is not negative, or a negative multiple of 100, is '<' + the canonical numeral of n + '>1' where n has the last two decimal digits of p and the hundreds digit that remains after 100*(p/100) is cut to a byte (so 300 is written 0); every reader gets n. The text of any other negative priority is rejected by Unmarshal5424, and Priority() of the message parsed from it returns 0 (kern.emerg). So a priority survives encoding, alone or in a message, if and only if it is between 0 and 299. Whatever the priority, its text has no space and the rest of the line is unchanged.", "quantifier": "every int p, every message", "why_tests_cant": "all int values; the byte conversions wrap", "anchors": ["priority.go:Priority.Marshal5424", "priority.go:Priority.Unmarshal5424", "message.go:Message.Priority", "message-immutable.go:MessageImmutable.Priority"]}
{"id": "C103", "title": "What a log text can forge, by framing", "statement": "With TransportRFC5425 the stream of any sequence of payloads is the stream of no other sequence: no content of a message can be taken for another message. With TransportLFEnded or TransportZeroEnded any sequence of payloads gives exactly the stream of a single well chosen payload, so no reader can tell them apart; a stream determines its payloads if and only if there is at most one and it does not contain the delimiter. The encoding of a message with a valid header contains the delimiter if and only if its text or the encoding of one of its structured data does. In particular, for every message m, every text and every message f chosen by the author of the text, logging m with the text, the delimiter and the encoding of f puts on the wire the frame of m with the text followed by the frame of f, and the Receiver delivers the two messages, the second with the priority, time and host of f. (The expectation that one log call gives at most one message at the receiver is false with these two transports.)", "quantifier": "all payload sequences, messages, texts and read boundaries", "why_tests_cant": "an attacker chooses the text; a test tries some", "anchors": ["transport.go:tLFEnded.Encode", "transport.go:tZeroEnded.Encode", "transport.go:tRFC5425.Encode", "message.go:Message.Msg", "message.go:Message.Marshal5424", "listener.go:Receiver.tokenize"]}
{"id": "C104", "title": "The memory a connection costs", "statement": "Whatever a peer sends on a connection, in whatever pieces, the Receiver's arrays for that connection have 65536 bytes each and there are at most 1 + n/65037 of them after n bytes; what is kept for the next read fits in one array. Every delivered message is a slice inside one array, so none is longer than 65536 bytes, and the slices of two delivered messages never overlap.", "quantifier": "all peers: every byte stream, cut into reads in every possible way, with every read error, for all three transports", "why_tests_cant": "the bound must hold for every length of stream and every way of cutting it, and aliasing is invisible to a test that looks at the messages once", "anchors": ["listener.go:Receiver.tokenize", "transport.go:tRFC5425.Decode", "transport.go:tLFEnded.Decode", "message-immutable.go:MessageImmutable"]}
{"id": "C105", "title": "The identifier an element reports and the one it carries", "statement": "Every TimeQuality, and every struct (or map without an empty key) given to GenericSD, that encodes carries on the wire exactly MarshalText of its SDID, followed by a space or the closing bracket; every element decoded by an SDID of the packages reports that SDID and, except for the unknown decoder, carries its MarshalText; Default is what the shortest element decodes to. An element without a registered decoder reports unknown@32473 whatever its identifier. The registry files an SDID under String, which for TimeQuality differs from the identifier on the wire: a generic SDID named timeQuality can be registered beside it, and what [timeQuality] decodes to, and whether it can be encoded again, then depends on the map order.", "quantifier": "all identifiers, all values given to GenericSD, all element bytes and all bytes behind them in memory, all registration orders", "why_tests_cant": "all byte strings and all values of a reflective encoder; the map order is chosen by the runtime", "anchors": ["sdata/sd-unknown.go:unknownDef", "sdata/sd-generic.go:genericSDID", "sdata/timequality/tq.go:tqdef", "sdata/list.go:Register", "sdata/list.go:registryT.Found", "sdata/structured-data.go:SDID"]}
{"id": "C106", "title": "A program logging from many goroutines, to the receiving program", "statement": "Take a program that makes its Syslogs and Channels and then, from any number of goroutines, calls AppName, Msgid, Write, Log and Logger Print on them, all through one Sender. For every interleaving of the goroutines with each other and with the Sender, memory access by memory access, with write failures between frames, and every Receiver reading the connections in any pieces: what is received is an interleaving of the messages the goroutines logged, each once, whole, with its own fields, in the order of its goroutine, and nothing else (RFC 5425 framing; with LF or NUL framing connection by connection, but for the crash of C33). If End is called after the last Send and has returned, and the Receiver is left with nothing to do, the receiving program has them all. The messages can be delivered under the conditions of C83.", "quantifier": "all programs, numbers of goroutines, interleavings, write failures between frames and read boundaries", "why_tests_cant": "every schedule of every program", "anchors": ["channel.go:msgChannel.Write", "channel.go:trueChannel.AppName", "channel.go:msgChannel.Log", "syslog.go:New", "connector.go:Sender.Send", "connector.go:Sender.flushQueue", "listener.go:Receiver.tokenize", "listener.go:Receiver.Receive"]}
{"id": "C107", "title": "What is sent is an RFC 5424 message, exactly when", "statement": "The README says that the library only produces packets compatible with RFC 5424. A message that encodes, whose header fields are words, is a SYSLOG-MSG of the RFC 5424 grammar (section 6, with UTF-8 of RFC 3629) if and only if its priority is written as a number up to 191, its year has at most four digits and its zone is less than a day from UTC, its header fields are printable and within the limits of the RFC, each of its elements is an SD-ELEMENT, and its text does not start with a byte order mark followed by bytes that are not UTF-8. A time quality always is an SD-ELEMENT; a map of scalars, a struct or an element decoded from the wire is one exactly when its names are SD-NAMEs and its values UTF-8. Every message made with the public constructors and setters meets the conditions on the header, and every frame of a logging program with facilities of the RFC, proper app names and conforming calls holds an RFC 5424 message. Without the conditions the claim is false: a nil map (two spaces in a row), a tag with a space, an identifier of 33 bytes, a value that is not UTF-8, priority 192, the year 10000, a byte order mark before invalid UTF-8.", "quantifier": "all messages, times, priorities, structured data and logging programs", "why_tests_cant": "a grammar over all byte strings, both directions", "anchors": ["message.go:Message.Marshal5424", "priority.go:Priority.Marshal5424", "sdata/structured-data-encoder.go:encodeState.PrefixedWrite", "sdata/structured-data.go:isValidTag", "sdata/timequality/tq.go:TimeQuality.Marshal5424", "ReadMe.md"]}
{"id": "C108", "title": "Which RFC 5424 messages are read right", "statement": "An RFC 5424 message (any SYSLOG-MSG of the grammar, from whichever program) has one decomposition into its parts. Parsed without transport framing, it is accepted with every part right - the priority number, the date (the zero date for the nil value), host name, app name, process id, message id, the elements with their parameters, and the text - if and only if its version is 1 (or its priority 0), every element has at least one parameter, and, when there is structured data and a text, each closing bracket in the text follows a backslash and the text does not end with one. Whenever it is accepted at all, the host, app name, process id, message id and date are right. The claim that every RFC 5424 message is read right is false in these three ways: an element without parameter is refused; a text with a bracket beside structured data is refused or loses its beginning; another version loses the priority.", "quantifier": "all messages of the RFC 5424 grammar", "why_tests_cant": "an equivalence over all byte strings of a grammar", "anchors": ["message-immutable.go:Parse", "message-immutable.go:MessageImmutable.StructuredData", "transport.go:parse", "priority.go:Priority.Unmarshal5424", "sdata/sd-unknown.go:unknownSDID.Found"]}
{"id": "C109", "title": "Parse and a Receiver with any implementation of Transport", "statement": "For any user-written Transport whose PrefixStrip cuts a whole frame made by its Encode off the front of any buffer and takes nothing of a part of a frame (a length on two bytes, say; RFC 5425 frames of at least 20 bytes are one), however the stream of frames is cut into reads and with any errors between them, a Receiver delivers the payloads of the whole frames received, in order, each once, decoded as Parse does without transport, reports the read errors and keeps the rest; with a Sender that uses the same Transport, every frame sent whole is delivered in the order of the calls of Send. For a Transport that works on the end of messages, Parse keeps as many bytes of the text as the first result of SuffixStrip has (its content is not looked at), does not touch the header fields, returns its other two results, and panics on a message without text part. In any case the bytes kept between two reads are the last ones received. (A PrefixStrip that returns its whole input as rest makes the Receiver deliver the same message for ever; a rest longer than the buffer stops the process.) The transports of the package are instances.", "quantifier": "all implementations of the interface as functions of their arguments, all payloads, all cuts of the stream into reads and read errors, all executions of the Sender", "why_tests_cant": "it ranges over all implementations of an interface and all streams", "anchors": ["transport.go:Transport", "message-immutable.go:Parse", "message-immutable.go:parseReturn", "listener.go:Receiver.tokenize", "connector.go:Sender.Send"]}
{"id": "C110", "title": "A Sender with any implementation of Connector and WriteCloser", "statement": "Whatever a user-written Connect returns (a connection, an error, both, or neither), if the Writes keep io.Writer's contract then in every execution the bytes written on the connections followed by the bytes queued are the frames of the calls of Send, in order; every error of Connect and of a Write (except ENOBUFS) goes to the error channel, in order, each once. A connection returned together with an error is used, and Connect is not called again until a write fails. The process stops exactly at a second End, at a write or at the end of the queue while the Sender has no connection (after a Connect that returned neither a connection nor an error, say, if there is something to write), or when the counts of the Writes sum below zero. With Writers that take less than the buffer without error, as many bytes go out as were sent (the expectation that they are the same bytes is false); with a Writer that takes nothing and returns no error, the lock stays held and no Send gets through. When both keep their contracts, the executions are exactly those of the other Sender properties.", "quantifier": "all results of Connect and Write, all schedules, all calls of Send and End", "why_tests_cant": "it ranges over all implementations of two interfaces and all schedules", "anchors": ["connector.go:Connector", "connector.go:ConnectorFunc.Connect", "connector.go:Sender.flushQueue", "connector.go:Sender.runQueue", "connector.go:Sender.Send"]}
{"id": "C111", "title": "A connection with any implementation of DataReader", "statement": "Whatever a user-written Read does with the slice it is given and whatever count n and error it returns: an error other than io.EOF is reported once; n = 0 leaves the connection as it was; a count n larger than the slice, or below zero by more than the number of bytes kept from earlier reads, crashes the process; otherwise exactly the bytes kept followed by the slice, cut n bytes after the kept ones, are decoded, and the goroutine ends if and only if the error was io.EOF or decoding panics. The slice and the bytes kept are 500 to 65536 bytes together. A message delivered never changes, and each of its bytes was written by some Read or is the zero of a new buffer. When Read follows the contract of io.Reader, even using the rest of the slice as scratch space, the connection does what the other Receiver properties say of the bytes counted. (The expectation that a message is made of bytes written by the Read that counted them is false: witness.)", "quantifier": "all sequences of calls of Read: what each writes, the count and the error it returns; the three framings", "why_tests_cant": "it ranges over all implementations of an interface and all histories of a connection", "anchors": ["listener.go:DataReader", "listener.go:Receiver.tokenize"]}
{"id": "C112", "title": "Panics of user code inside Send, recovered by the caller", "statement": "A call of Send on a message meets, in this order: the first structured data that does not encode, whose error is returned or whose panic goes through; else the Transport, whose Encode may panic (always, if it is nil); else it queues the frame. Inside GenericSD a panic of a nested structured data (a member of a struct or an entry of a map, possibly behind pointers and in slices) with an error value is returned as that error (not wrapped, unlike an error it returns), any other panic goes through, the members of a struct being met in order and the entries of a map in the order of their keys; directly in the list every panic goes through. A panic or an error of structured data leaves the Sender exactly as if the call had not been made. A panic of Encode leaves the lock held for ever: from then on no call of Send whose structured data encode ends, the queue does not change, no byte is written, and if messages were waiting End never returns, with nothing reported; with an empty queue and an open connection End still returns. As long as no Encode panics, executions are those of the other Sender properties. (The expectation that recovering the panic is enough is false: witness.)", "quantifier": "all messages, structured data values, Transports and interleavings of calls of Send, some of them panicking, with the actions of the Sender, the network and the user", "why_tests_cant": "it ranges over all user code and all executions, before and after the panic", "anchors": ["connector.go:Sender.Send", "connector.go:Sender.flushQueue", "connector.go:Sender.End", "sdata/structured-data-encoder.go:encodeState.marshal", "sdata/structured-data-encoder.go:marshalerEncoder"]}
{"id": "C113", "title": "Several Senders on the same standard file", "statement": "Every Sender made with StdioConnector for the same file (stderr: or stdout:) writes to the one open file of the process, and the End of each closes it. Each such Sender goes through executions of a single Sender, so its other properties hold, but once one of them has closed the file, none writes a byte any more: messages sent from then on, and those that wait, stay in the queue although Send returns no error; each attempt to write ends in an error that the Sender reports; a Sender with nothing to write still Ends; the End of one that had something to write never returns, its error channel is never closed, and it reports errors without bound as long as they are read. (The expectation that the End of a Sender does not harm another is false: witness.)", "quantifier": "all executions of any number of Senders on one standard file, before and after the first of them closes it, all messages, schedules and write results", "why_tests_cant": "it ranges over all interleavings of all Senders and all futures after the first End", "anchors": ["connector-fd.go:StdioConnector", "connector.go:Sender.runQueue", "connector.go:Sender.flushQueue", "connector.go:Sender.End"]}
{"id": "C114", "title": "How long a message waits, and how long End takes", "statement": "When nothing fails and the goroutine of the Sender performs each of its actions (a Connect or a write included) within delta of being able to, every message whose Send has returned is written once the period of the ticker plus five delta have passed: from any point (also after a failed attempt, once its error is reported) until the last loop of End is over; for a Sender made by Dial the period is 500 ms. The bound is reached. Once End is called it is five delta whatever the ticker, and End itself returns within 23 delta if nobody logs any more, without ticker or if the period is longer than that; with a shorter period, there are executions where it has not returned after any given time (the goroutine chooses the ticker each time). Without ticker (FlushDelay of at most one millisecond) nothing is written before End, however long it takes.", "quantifier": "all timed executions: all periods, delays, messages, schedules, moments of Send and End", "why_tests_cant": "it bounds a delay over all schedules and all moments; a test sees one schedule", "anchors": ["dialer.go:Dialer.Dial", "connector.go:Sender.runQueue", "connector.go:Sender.flushQueue", "connector.go:Sender.End"]}
{"id": "C115", "title": "Many Senders to one Receiver", "statement": "Any number of Senders, each with any number of connections (its failing writes stopping between two frames), all to one Receiver, which reads these connections in any pieces and interleaving; RFC 5425 framing; or LF or NUL framing with messages without structured data and no read that stops just after the '-' of a message; or LF or NUL framing with any messages that have a text, when the reads are suitable as in C84. At every moment no decoder crashes, and what Receive has returned is, of each connection, the first of its messages, in order, each once, and nothing else. Once all bytes are read, without End and with every Accept giving a connection, every schedule stops after a bounded number of steps, without crash, and the user has then received every message of every Sender exactly once, those of one connection in order, nothing else. (The expectation that the messages of one Sender are received in order is false when it reconnects: witness C115_order_refuted.)", "quantifier": "all numbers of senders and connections, message lists, schedules of the senders and the receiver, read boundaries, write failures between frames", "why_tests_cant": "it ranges over all interleavings of several programs and all segmentations of their streams", "anchors": ["connector.go:Sender.Send", "connector.go:Sender.flushQueue", "listener.go:Receiver.Receive", "listener.go:Receiver.runQueue", "listener.go:Receiver.tokenize"]}
{"id": "C116", "title": "Trees and chains of relays", "statement": "A relay is a program that sends Writable() of each message its Receiver returned. Take a tree of programs of any shape and depth; each logs messages of its own, relays what it receives, or both, interleaved, through a Sender that may reconnect between two frames, to the Receiver of the next program, over RFC 5425 framing or LF/NUL framing (under the conditions of C84), with any reads and any schedules; and suppose every message logged can be decoded from its own encoding (C14) in any order the registries may be tried in. When all is flushed, read and received, the root has received every message logged anywhere exactly once, without error, String() being its encoding and Writable() the message with its time at the microsecond, and nothing else. At every earlier moment it has received some of them, each at most once, and nothing else. With one connection per hop a chain of relays of any length delivers them in the order logged.", "quantifier": "all trees of programs, numbers of connections, messages, schedules, read boundaries and write failures between frames at every hop", "why_tests_cant": "the depth of the tree and the interleavings at every hop are unbounded", "anchors": ["message-immutable.go:MessageImmutable.Writable", "connector.go:Sender.Send", "connector.go:Sender.flushQueue", "listener.go:Receiver.Receive", "listener.go:Receiver.tokenize"]}
{"id": "C117", "title": "The Buffer of a received error", "statement": "When Receive returns a ParseError, the transport is RFC 5425 and the error's Buffer holds exactly the payload of one frame of the stream, the one whose decoding gives that error at that position; it goes on holding exactly these bytes whatever is read from the connection later, although it is a slice of the buffer the connection is read into. So the text of the error names the received payload whenever it is asked for: errors with the same text come from the same payload.", "quantifier": "all byte streams, read boundaries, read errors, transports, and moments after the error was delivered", "why_tests_cant": "the Buffer shares memory with a buffer that later reads fill; which bytes they write depends on the whole history of reads", "anchors": ["errors.go:ParseError", "message-immutable.go:Parse", "listener.go:Receiver.tokenize", "transport.go:tRFC5425.PrefixStrip"]}
{"id": "C118", "title": "Local connections in the build for other systems", "statement": "In the build for systems other than darwin, linux, the BSDs and illumos, a local Connector with a network and an address dials exactly these, as everywhere; with either missing it dials nothing and fails with ErrNoConnection, every time. So there Dial(\"local\", any address), Dial(\"unix\", \"\") and Dial(\"unixgram\", \"\") report no error, but in every execution of their Sender no byte is ever written, every frame sent stays in memory, and End never returns.", "quantifier": "all networks, addresses, answers of the system, numbers of attempts, and all executions of the Sender", "why_tests_cant": "that a Sender never writes is a statement about all its executions; the build is one the tests are not run on", "anchors": ["connector-local_other.go:osGuessConnnector", "connector-local.go:Connect", "dialer.go:Dialer.Dial"]}
