# Design: a Rocq model of dynamixel2-rs

Property statements are in `properties.jsonl`; the theorems are in
`rocq/theories/P_*.v`; `MANIFEST.json` says which theorems belong to which property.

## What is modelled

| file in /repo | Coq file | how |
|---|---|---|
| Rust itself: u8, slices, panics, Result | `Base.v` | byte = Coq `byte`; slices = lists; panic = value |
| `src/bus/endian.rs` | `Endian.v` | verbatim |
| `src/checksum.rs` | `Checksum.v` | table transcribed mechanically |
| `src/error.rs` | `Error.v`, `ErrorFrom.v`, `Text.v` | error types, `check` functions, `From` conversions, `Display` (with `core::fmt` for numbers) |
| `src/bus/bytestuff.rs` | `Bytestuff.v` | in-place loops with explicit indices |
| `src/bus/packet.rs` | `Packet.v` | packet = its data slice |
| `core::time::Duration`, `message_transfer_time` | `Time.v` | u64 overflow explicit |
| `src/bus/mod.rs`, `src/serial_port/mod.rs` | `Bus.v` | state monad over the bus record and the port |
| `src/bus/data.rs` | `Data.v`, `ArrayMemory.v` | `Data` trait as a record; ints, arrays, `ArrayInitializer` drop log |
| `src/client.rs`, `src/response.rs` | `Client.v` | |
| `src/instructions/*.rs` | `Instructions.v`, `HintModel.v` (`size_hint`), `CallerIter.v` (C90) | one definition per API function |
| `src/device.rs` | `Device.v`, `BorrowModel.v` | packets as values; the unsafe loop with references and permissions |
| `static_buffer!` in `src/bus/mod.rs` | `StaticBuffer.v` | interleaving transition system |
| `dynamixel2-cli` | `Cli.v`, `CliOutput.v`, `VerboseModel.v`, `Completion.v` | MotorId parsing, command dispatch; lines printed, exit status, verbosity; shell completions (the script is a parameter, Unix paths) |
| `src/log.rs` and its five uses | `LogModel.v` | the functions that log, with the records they log; texts of the records |
| `src/serial_port/serial2.rs` | `Serial2.v` | `read` and `make_deadline` in time; the crate serial2 below it is a parameter |
| `tests/common/mock/mock_device.rs` | `MockDevice.v` | one round of the simulated motor's loop, all instructions |
| `tests/common/mock/mock_serial_port.rs`, `mod.rs` | `TestBus.v` | interleaving transition system of the threads using the bus |

`Api.v` collects the public operations (`api`) and the states a program can get to
by calling them (`reach`).  Every definition cites the lines it models.

Not modelled: `Debug` implementations (except of `Ping`), what the crates log and env_logger do with
records, colours, option parsing by clap (except the motor id), feature flags,
thread safety of anything but `static_buffer!`, real hardware.

### The serial port

The port is an arbitrary implementation of the `SerialPort` trait.  The model takes
the list of answers it is going to give to `read` (every list of chunks and errors is
allowed, including empty chunks), the answers to `discard_input_buffer`, `write_all`
and `set_baud_rate`, and logs every call with its arguments (`p_log`).  Theorems
quantify over all of these.  A call that still waits for an answer when the list ends
is `Blocked`.  A chunk longer than the buffer passed to `read` is delivered in
pieces.  A port that violates the trait's contract by reporting a count other than the
number of bytes it filled in is the subject of C80 only (`FaultyPort.v`).

### Simplifications

- Panics are values (`Panic kind`).  `reach` follows calls that return; states after a panic are
  the subject of C70 only.
- Debug and release builds differ in arithmetic overflow: flag `b_dbg` in the bus.
- `usize` is `nat`, with overflow checks where the code adds lengths supplied by
  the caller; `u16`/`u32`/`u64` are `N` with explicit wrap or panic.
- Loops over received data run with fuel computed from the state; `Bus.v` says why
  it is enough, and the refinement theorems (C17 and those after) would be false if not.
- Borrowed slices are copies; lifetimes are the business of the borrow checker, except where unsafe code makes them (C87).
- `Scan`'s drop loop is unbounded in the code; the model runs at most `fuel` rounds and
  says whether it has ended, theorems quantify over the fuel.
- Writing happens at an abstract moment; there is no clock, except for C57 where the
  logged calls are given times afterwards (`ClockSpec.v`).  Deadlines are what the
  port returned for a timeout, the log records with which deadline each read was made.
- `ArrayInitializer`: ownership is a log of dropped elements; slots are values that may be uninitialized (`ArrayMemory.v`).
  Dropping an element does not panic.
- Client and motors together (`RemoteSpec.v`): the traffic of one call is exchanged in
  rounds.  The client's packet reaches all motors, each goes through its loop once, then
  everybody hears all answers.  Bytes arrive cut into reads in any way.  The shared
  serial port of the integration tests is modelled on its own (C77), without clocks;
  `ConcurrentSpec.v` puts client and simulated motors on it as threads (C78): a thread is a function of what it has read.
  The flag that ends the threads of the motors (`kill` in `MockDevice::run`) is not modelled: they run on.
- Iterators (`SyncRead` ...) are records passed explicitly; `&mut Client` is the state.
- Iterators passed by the caller are the lists of their items; those that break their promises are the subject of C90 only
  (`CallerIter.v`).  Iterators that panic are not modelled, nor buffers whose `as_ref` and `as_mut` disagree.

## Trusted base

- Coq 8.16.1's kernel (including `vm_compute`).
- `Print Assumptions` under every theorem in `P_*.v` prints "Closed under the global
  context": no axioms, also none of the standard library.  (`coqchk` on the whole
  library lists axioms of `Coq.ssr.ssrunder`, loaded by the standard library and
  not used.)
- The transcription of the code in the model files of the table above, in particular
  the assumptions listed under "Simplifications".  `RepoTests.v` runs the unit tests and the integration
  tests of the crate on the model (those marked `should_panic` fail there too); these are checks of the
  transcription, no property rests on them.
- The specification files: `Spec.v` (CRC, stuffing, frames), `CallSpec.v` (calls on the
  port), `StreamSpec.v` (bytes on the line), `DeviceSpec.v`, `InstructionSpec.v` (table of
  the protocol), `DataSpec.v`, `TimeSpec.v`, `SmallSpec.v`, `TwinSpec.v`, `CliSpec.v`,
  `RemoteSpec.v` (the wire, and memories accessed from a distance), `ClockSpec.v` (calls in time),
  `ProfileSpec.v` (debug and release builds), `RoomSpec.v` (larger buffers), `ConformSpec.v` (motors that follow the protocol), `SurviveSpec.v` (what a panic leaves behind), `MemorySpec.v` (elements of an array), `SlotSpec.v` (what arrives
  in place of an answer), `ResyncSpec.v` (packets after arbitrary bytes), `LogSpec.v`, `TextSpec.v`, `TextRoleSpec.v`, `CliOutputSpec.v`, `VerboseSpec.v`, `TurnSpec.v`, `TypedSpec.v`, `BulkSpec.v`, `EchoSpec.v`, `LateSpec.v` (answers after the deadline), `TestBusSpec.v`, `ConcurrentSpec.v` (threads on that bus), `PatientSpec.v`, `ErrorSpec.v`,
  `CrcSpec.v` (error patterns), `ShortSpec.v` (short messages), `HintSpec.v`, `FaultySpec.v` (ports that report wrong counts), `PanicSpec.v` (known reasons), `CompletionSpec.v`, `CliRemoteSpec.v`, `NumberSpec.v`,
  `NoiseSpec.v` and `DisturbedSpec.v` (disturbed lines), `BorrowSpec.v` (uses of a packet), `HandoverSpec.v`, `CostSpec.v`, `NumberManySpec.v`, `PanicExactSpec.v`, `PanicDropSpec.v`, `GivenSpec.v` (commands nobody gave).  They do not use the functions
  of the model, only its data types.
- `tools/gen_props.py` is not trusted: its output is what is checked.

## How each property is proved

- C01-C03 (`ChecksumProofs`, `CrcErrorProofs`): table against bitwise polynomial division,
  by a finite sweep lifted to all states by linearity; induction over the data; error
  detection by linearity of the remainder; exactly which changes are overlooked from the
  division (`CrcExact`), for two flips from the order of x modulo the generator, and for
  whole packets with the CRC read in the order of the division (`CrcPacketTheorems`, C22).
- C04-C07 (`StuffProofs`): recursive specification `pstuff` of the protocol's stuffing
  against the in-place loops, via loop invariants; exact condition on runs of FF.
- C08-C13 (`WriteProofs`, `SendProofs`, `SendTheorems`): frame specification, log of calls.
- C14, C15, C48, C49 (`ApiProofs`): invariant over all API operations.
- C16-C24 (`ReadProofs`, `StreamProofs`, `MessageProofs`, `ReadTheorems`, `CorruptionTheorems`):
  refinement of the buffering reader to a parser of the item stream (`ideal`).
- C25-C27 (`TransferTheorems`), C28, C41, C42, C44-C46 (`StatusProofs`, `DeviceTheorems`),
  C29-C32 (`InstructionProofs`, `GenericTheorems`), C33-C35 (`IterProofs`, `IterTheorems`, `HintTheorems`,
  `ScanTheorems`): both directions are given: what an Ok result implies about the
  bytes on the line, and what each possible line leads to.
- C36-C38 (`DataTheorems`): induction over array nesting.
- C39, C40 (`TimeTheorems`): arithmetic on N; log of deadlines.
- C43 (`UnderstoodTheorems`): composition of the client's writes with the device's reads.
- C47 (`SmallTheorems`): invariant of the interleaving semantics.
- C50 (`SmallTheorems`): direct.
- C51 and the second half of C11 (`TwinProofs`, `TwinTheorems`): bisimulation between buses that differ only in
  leftovers, over all API operations, lifted to programs (trees of calls).
- C48 (later timeouts), C52 and the exact timeouts of C40 (`BaudTheorems`): the baud rate as a function of the
  log, over all API operations.
- C53 (`CliTheorems`): composition of the results for the API functions.
- C54-C56, C61 (`RemoteProofs`, `RemoteTheorems`, `RemoteExtra`, `ShortTheorems`): refinement, by induction over the
  session, of client, motors and wire to memories accessed directly; the invariant says
  that each motor has at most skippable traffic of others left to read.
- C57 (`ClockProofs`, `ClockTheorems`, `ClockIterTheorems`): for all API operations, the log consists of
  deadlines each followed by its reads of which only the last fails; induction over
  such logs with times.
- C58 (`SyncLengthTheorems`): direct.
- C59 (`ProfileTheorems`): simulation between the debug and the release build over all API
  operations, lifted to programs.
- C62 (`TextTheorems`, `TextRoleTheorems`): texts are decoded from left to right; numerals by their value. `TextRoleSpec.says` is a table of
  what each text must say, by the words in front of each number.
- C63 (`SizeTheorems`): from the complete outcome of a write, and the parser of the item stream.
- C64 (`LogTheorems`): the logging versions equal the model of the functions once the log is
  dropped; the log of the read loop by the same induction as the loop itself (C17). `already_received` counts what
  the bus held when the read began: of the skipped bytes only those can be shown wrongly.
- C65 (`CliOutputTheorems`): `cli_output` equals `cli_command` once the lines are dropped; lines are
  decoded like the texts of C62, and `announces`, `tells`, `scan_lines` spell them out with numerals.
  The text of an elapsed time is a parameter without a colon. `marked` counts the lines on the screen by their
  first words, so the marks of errors and warnings are checked as text, not as levels.
- C66 (`SlotTheorems`): one step of the iterators for each kind of arrival, induction over the requests;
  a lost answer as a line that is one answer behind.
- C67 (`ResyncTheorems`): induction over the length of the junk on the parser of the item stream; the packets that
  end in a header by an invariant of the pending bytes.
- C68 (`TurnTheorems`): the skipping of status packets on the stream of pending items (`listens`), and the exchange of C54
  with a line that stays silent for as many reads as there are other motors.
- C69 (`ConformTheorems`): motors as arbitrary state machines over commands (`behaviour`), and the grammar of the protocol as a
  relation (`spells`) shown to be a partial function of the bytes on the line (stuffing as the protocol defines it is undone by
  `destuff`); then the exchanges of C22–C31 and C66, call by call, and induction over sessions.
- C70 (`SurviveTheorems`; scans and typed sync reads in `UnwindTheorems`, from C81): the invariant of C14 holds after every outcome; `survives` adds to `reach` the states after a
  panic, with any contents of the buffers the panicking function could have left; then C51, C16 and C69 for these.
- C71 (`MemoryTheorems`): `ArrayMemory.v` models the uninitialized slots of `ArrayInitializer`; loop invariant "the first
  `initialized` slots are written, the others are not".
- C72 (`DeadlineTheorems`): arithmetic, and the exact timeouts of C40. `C72_linux` states the border for the clock of
  Linux in numbers (seconds in an `i64`, a fact about the standard library that is trusted).
- C73 (`TypedTheorems`): equations between the two computations, by case distinction on what they share (`read_raw`,
  `read_status_response`, `write_packet`); the drop loops by induction.
- C74 (`BulkTheorems`): the exchanges of C54, with a bulk write; the loop of the simulated motor by induction.
- C75 (`EchoTheorems`): the packet that the reader makes of the transmitted bytes (C18, without the restriction to messages
  that survive stuffing: the instruction byte always does), the slots of C66, the scan of C35, the deafness of C68.
- C76 (`LateTheorems`): `LateSpec` describes sequences of reads, each with what arrives before and during it, on a port that discards
  its input or does not.  A call takes exactly one chunk of the script if a whole message is in it; by induction over the calls, a port
  that discards nothing is a queue of answers.
- C77 (`TestBusTheorems`): invariants of the interleaving semantics in `TestBus.v`; the specification (`TestBusSpec`) only looks at
  the events.
- C78 (`ConcurrentProofs`, `ConcurrentTheorems`, `ConcurrentResults`): invariant of all interleavings: what has been said is the conversation of a
  beginning of the calls, every endpoint has got, read by read, whole messages of it, and every thread is what its program does with
  these; witnesses for the refuted variants are concrete interleavings, checked by execution (`ConcurrentExamples`).  Partial: `directed` calls, no timeouts of the client.
  `ConcurrentScan` does the same for a scan on its own, with timeouts: every motor says its answer at most once.
  `ConcurrentPatient`, `PatientTheorems`: sequences that mix these calls, with calls for missing motors; the client gives up only when
  nothing goes on (`PatientSpec.patient`).  The invariant (`dialogue`) says which calls are over, with what the client read during each,
  and how far the current one is; a timeout is then either the end of a scan or a missing motor.
- C79 (`ErrorTheorems`): cases; the specification (`ErrorSpec`) reads off what an error says.
- C80 (`FaultyPort`, `FaultySpec`, `FaultyTheorems`): the loop of `read_packet_deadline` by recursion over the answers
  of the port, each with the bytes filled in and the count reported.  One round in terms of the unread bytes
  (`f_loop_step`, as `read_loop_step`), then induction over the answers: for the bookkeeping, and for the simulation by
  an honest port that delivers what is in the buffer (states equal up to the free part of it).  Recovery: `write_packet`
  empties the read buffer before it uses the port; closed under the ways the API builds on it.
- C81 (`PanicSpec`, `PanicTheorems`): the calls with acceptable arguments are an inductive predicate with one constructor per
  function of the API.  A weakest-precondition style judgement (`safe`: no panic, the invariant still holds, the result satisfies a
  postcondition) is closed under the combinators of the monad and proved for the two primitives, sending and reading one message; what a
  successful read returns is a packet with the bytes the accessors look at.  Necessity: concrete calls, by execution.
  `PanicExactSpec`, `PanicExactTheorems`: the exact condition for calls that send one message.  The outcome of sending is read off its
  value (C09); each call is brought into the form "send, then read one status, then compute", and the computation is shown not to panic
  on any packet a read can return.  `PanicDropSpec`, `PanicDropTheorems`: dropping an iterator is compared with taking its elements,
  read by read.
- C60 (`RoomTheorems`): simulation between buses with smaller and larger buffers, on the stream
  of pending items, over all API operations that return a result.
- C82 (`CompletionSpec`, `CompletionTheorems`): induction on the answers of the system for the writing loop; `Path` equality with `-` is shown
  to be an inductively defined set of spellings (`-`, `-/`, `-/.`, ...); the line break at the end means that nothing stays in the buffer of stdout.
- C83 (`CliRemoteSpec`, `CliRemoteTheorems`): each command is an operation of C54 (`means`); the typed calls behind it are the byte
  calls (C73), the lines are those of C65; then the exchanges of C54, with a new client for every run.  `ShortTheorems`: the condition of
  C06 only depends on which bytes are FF or FD, so seven bytes are 3^7 cases, checked by computation; every longer claim about short
  messages (C54, C56, C83) follows.
- C84 (`NumberSpec`, `NumberTheorems`): the bytes on the wire are those of the code's stuffing for every request of C29, and these are
  the protocol's exactly if no pattern is overlooked (C04). Receiving: unstuffing what a conforming peer sends leaves the data
  longer by the number of overlooked patterns, hence either the data is intact or the parameter count is wrong. Integers: case
  analysis over at most four bytes. Between two users of this library the excluded value gets through (C06, C83): both ends make
  the same mistake. `NumberManySpec`, `NumberManyTheorems`: a motor id is neither FF nor FD, hence separates the runs of FF of one entry
  from those of the next (induction over the entries); the iterators read one status per request (C33), with the answer of each as above.
- C85 (`NoiseSpec`, `NoiseTheorems`): the line of C69 with faults. A damaged message is no code word (difference not a multiple of the
  generator, from C22), so motors ignore it and the reader reports a checksum error; noise contains no message, so the reader can only
  return the error that ends it. Both make the call fail after the request was sent; the rest is C69. Sessions and retries by induction.
- C86 (`DisturbedSpec`, `DisturbedTheorems`, `DisturbedExample`): like C85 but for all calls and motors, and with no model of the noise at all: the
  script of the port is universally quantified, and so is what each motor hears. The assumption is about the content only (no valid
  packet nobody has sent). Proved with a program logic for the reads of a call (`honest`): each read either takes a status packet of
  the list of those sent, or gives an error that is not a motor error, and uses up at most one error of the port. A scan ends because
  every step shortens what is on the line and a timeout is used up only by the step that returns it.
- C87 (`BorrowModel`, `BorrowSpec`, `BorrowTheorems`): the loop of `Device` with tagged references and a stack of permissions; using a
  reference whose permission is gone is a value of its own (`BUB`). Invariant of the loop: the permission of the device is on the stack.
  Refinement of the model with values; after a read the stack ends with shared permissions, which reading keeps.
- C88 (`HandoverSpec`, `HandoverTheorems`): a request leaves the same state whatever was read ahead, unless it is rejected; then the
  bisimulation of C51. Programs as in C51; "used directly" is any other state of the port.
- C89 (`CostSpec`, `CostTheorems`): the state of the stuffing matcher after an id or an ordinary high byte is the initial one; where it
  stands makes a difference of at most one stuffed byte. Induction over the motors. Typed calls (`CostTyped`): by C73 they leave
  the same state as the calls with bytes.
- C18, C43, C46, C55 for short messages (`ShortMoreTheorems`): by exhausting the kinds of bytes of seven (C06), no
  condition on their contents is needed. C59 for sending a message: from its complete outcome in both builds.
- C90 (`CallerIter`, `GivenSpec`, `GivenTheorems`, `GivenValues`): the loops over the commands, for more and fewer items than there is room for. A call
  with missing commands equals the honest call with commands read off the write buffer; the last message sent is at its front.
- C91 (`VerboseModel`, `VerboseSpec`, `VerboseTheorems`, `VerboseScanTheorems`): the tool once more, with its own lines and the records of the library in one list. Dropping
  the records gives `cli_output`; the records of every part are the packets written (`told`), composed like the parts. Records about garbage
  come in pairs, a number and the bytes (`pairs`); the bytes are right because the packet sent first empties the buffer. In a
  scan every step is one read (`scan_next_told`); the message it logs is the one the packet was made of (`message_shown`). That the messages shown
  say what is reported combines this with C53 (`carried_shown`). The line about the
  serial port (`open_client`) comes before all this, see C65.

Properties that are false of the faithful model are stated as `..._refuted` theorems (the
negation of the full statement, with a witness in the proof), next to the strongest true
variant (`..._partial`, and theorems with exact conditions).  In the manifest these
are "partial".

## Findings about the code

| | finding | theorems |
|---|---|---|
| 1 | The matchers of `stuff`/`unstuff` forget the pending FFs on a mismatch: a run of n FFs before FD is recognised only if n mod 3 = 2.  FF FF FF FD goes out unstuffed; a header can appear in the data.  A motor that follows the protocol stores FF FF FF FD for a write of FF FF FF FD FD, and the client reports success.  The position -33554433 can neither be written to nor read from such a motor. | C04, C05, C06, C07, C18, C43, C46, C69, C84 |
| 2 | `write_packet` does not count the CRC when it checks whether stuffing fits: a message that needs stuffing panics with a buffer one or two bytes too small. | C09 |
| 3 | The length field is truncated to 16 bits for packets over 65535 bytes (a debug build panics instead). | C10, C59 |
| 4 | A message with length field 2 and valid CRC, or a status packet with length field 3, makes the reader panic. | C16 |
| 5 | Acknowledgements of other motors are accepted (`read_response_if_not_broadcast` does not compare ids). | C26 |
| 6 | `clear_error` sends 01 45 52 43 4C instead of 02 45 52 43 4C; `Device` reads it as "clear multi turns"; a motor that follows the protocol ignores it. | C29, C43, C69 |
| 7 | `reg_write` and `sync_write` assume one byte of data: every wider type fails. | C30, C31 |
| 8 | `bulk_write` does not check for duplicate motors, although documented to panic. | C32 |
| 9 | Dropping a `Scan` never ends if the read buffer is smaller than 10 bytes, or while the port keeps failing with an error that is not a timeout. | C35 |
| 10 | Array `decode` panics on short buffers and ignores surplus bytes. | C37 |
| 11 | `ArrayInitializer::finish` does not forget the initializer: elements are dropped although they were handed out (double drop). | C38 |
| 12 | Response timeouts ignore byte stuffing: at 9600 baud a response can need longer than the timeout even without any delay; baud rate 0 panics (division by zero). | C40 |
| 13 | `read_owned` turns BulkWrite into BulkRead. | C45 |
| 14 | A header that announces too large a message is only reported once a byte after the length field arrives. | C23 |
| 15 | The command line accepts "+5" and "007" as motor ids. | C50 |
| 16 | `reg_write`/`sync_write` of a zero-size value (`[u8; 0]`) send one stale byte of the write buffer. | C51 |
| 17 | A finished `Scan` listens again for a full timeout when dropped, and throws away what arrives. | C52, C53 |
| 18 | Test code: the simulated motor looks for its id among all bytes of a synchronous write, so a data byte equal to its id makes it store the wrong bytes. Also in the simulated motor: it answers pings, writes and actions sent to all motors (C78: the client takes such an answer for the answer to its next read). In a bulk write (C74) it steps from entry to entry by the data length without the 5 bytes in front of the data (and never ends for length 0); it waits for the status packets of earlier motors with `Device::read`, which skips status packets (the tests of this are marked `should_panic`). | C54, C74, C78 |
| 19 | When the stuffing does not fit, `BufferTooSmallError` names only the part of the write buffer after the header ("need 13 bytes, but the size is 12" for a buffer of 19 bytes that needs 22); in the other case the size it asks for leaves no room for the stuffing, and a buffer of that size can make the call panic. | C63 |
| 20 | The trace message "skipped garbage" shows the first bytes of the read buffer; after a packet was handed out these are bytes of that packet, not the garbage. | C64 |
| 21 | A scan with the command line tool ends with exit status 0 also if pings failed; the failures are only printed. | C65 |
| 22 | If the answer of one motor to a sync or bulk read is missing and the next motor answers within the timeout, that answer is used up (as an error) for the missing motor, and so on: every item from the missing motor on is an error although the answers arrived. An answer that breaks off likewise takes bytes of the next with it. | C66 |
| 23 | The two CRC bytes are not covered by the stuffing. A packet whose data ends in FF FF and whose CRC bytes are FD 00 ends in a header; a reader that is out of step takes it together with the header of the next packet for a message of 65023 bytes, skips both, and meets the next false header: it loses every packet as long as packets like this one follow, also with pauses in between. | C67 |
| 24 | `Device::read` and `read_raw_instruction_timeout` skip status packets, so a device built on the crate can never learn that the motor before it has answered. The simulated motor (whose source has a todo about it, and whose tests are marked `should_panic`) therefore answers a sync or bulk read only if it is the first of the list; the client gets timeouts for the others. | C68 |
| 25 | A malformed message (finding 4) makes `next` of a sync or bulk read panic; unwinding drops the iterator, which reads the remaining answers.  A second such message panics inside `drop` during unwinding, which aborts the process: `catch_unwind` does not help. | C70 |
| 26 | `make_deadline` of the serial2 port adds the timeout to `Instant::now()`: a timeout like `Duration::MAX` ("wait for ever") panics. | C72 |
| 27 | Dropping a `SyncRead` decodes the responses it throws away: a `Data::decode` that panics for some value panics inside `drop` (`SyncReadBytes` only reads them).  If `next` panics in `decode`, unwinding drops the iterator and decodes the other answers: a second panic aborts the process. | C70, C73 |
| 28 | The simulated motor of the tests looks for its entry of a bulk write by advancing by the length of the data, not of the entry (`mock_device.rs:141`): it only finds the first one; other motors panic or loop for ever. | C74 |
| 29 | Requests and answers are matched by motor id only. `SerialPort::discard_input_buffer` may be a no-op (`serial_port/mod.rs:24`); on such a port one answer after the deadline makes every later call return the answer to the call before it, with no error. | C76 |
| 30 | Test code: `MockSerial::read` panics with the mutex locked if more bytes wait than fit, which poisons it: from then on every `write_all` of every other endpoint panics. With concurrent writers the endpoints hear different orders. Devices with equal ids do not hear each other. | C77 |
| 31 | Test setup: an answer after the client's deadline makes a later read report the old value although a write was sent in between; a motor thread that is slow to read finds more than its buffer holds and panics, although every message fits; so does a client whose scan is answered by more motors than its buffer has room for before it reads; a simulated motor acknowledges a write sent to all motors, which a real one does not, and the next call fails. | C78 |
| 32 | `InvalidHeaderPrefix::check` (public) panics instead of returning an error for a slice of fewer than four bytes (`error.rs:212`). | C79 |
| 33 | A call that fails while waiting for its answer may have been carried out, so repeating it can carry it out twice (inherent in the protocol; matters for commands that are not idempotent). | C85 |
| 34 | The documentation of `Device::into_serial_port` says that losing the read buffer is normally no problem because it is discarded with every transmission anyway. For a device it is one: instructions that arrived together with the one just returned are lost, also when the device sends an answer. | C88 |
| 35 | `sync_write_bytes` and `sync_write` trust `ExactSizeIterator::len`, a safe trait: if the iterator gives fewer commands, the rest of the message is what lies in the write buffer, so motors execute pieces of earlier messages as commands. `bulk_write` likewise trusts that two passes over a cloned iterator agree. In a release build the size of the announced commands can wrap around. | C90 |

## Tests against wrong programs

`seeded/LOG.jsonl`: edits of the model like realistic bugs, in a scratch copy
(`tools/mutate.py`), with the theorems that fail and what was tightened.

## Building

`cd rocq && coq_makefile -f _CoqProject -o Makefile && make -j4`.  `tools/gen_props.py`
writes `P_*.v` from `tools/P_*.tpl` and the lemmas `L_*`; `tools/gen_manifest.py` writes
`MANIFEST.json`.
