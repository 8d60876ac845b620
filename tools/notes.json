{
  "C01": "The checksum is characterised as the remainder of the polynomial division.",
  "C04": "False as stated: parameters FF FF FF FD go out unstuffed. Proved: the exact condition (length of FF runs before FD) under which the body is as prescribed.",
  "C05": "False as stated: parameters FF FF FF FD 00. Proved under the condition of C04, and the exact condition: which headers in the data go out as they are.",
  "C06": "False as stated: FF FF FD 00 FF FF FF FD. Proved: the exact condition (which patterns go out bare, and which of them the receiver counts), and two simpler sufficient ones; any data of up to seven bytes (eight can fail).",
  "C07": "False as stated. Proved: a conforming packet is always read, and its data is right exactly when the FF runs are of recognised lengths.",
  "C08": "False as stated (C04, C10). Proved: the exact condition, and what is sent otherwise.",
  "C09": "False as stated: a write buffer with room for the stuffed data but not the CRC makes the call panic. Proved: the exact outcome for all data whose packet fits the 16-bit length field; no panic when there is room for the worst case.",
  "C10": "False as stated for packets over 65535 bytes, in debug and release builds. Proved modulo 2^16, and exactly for write buffers up to 65542 bytes.",
  "C16": "False as stated: a message with length field 2 and valid CRC. Proved: the exact set of inputs on which reading panics.",
  "C18": "False as stated (C06). Proved: the packet is always read, and is the one written exactly under the condition of C06. Messages with up to seven bytes of parameters always arrive unchanged.",
  "C26": "False as stated: the status packet of any motor is accepted as the acknowledgement (the response does carry that motor's id). Proved: the call succeeds only with a packet without error and without parameters, and the exact outcome for every answer.",
  "C29": "False for clear_error: it sends 01 45 52 43 4C, the protocol prescribes 02 45 52 43 4C. Proved for every other instruction, and the bytes clear_error sends.",
  "C30": "False as stated: reg_write always announces one byte of data. Proved for one-byte types; every wider type always fails without sending anything.",
  "C31": "False as stated: sync_write always announces one byte per motor. Proved for one-byte types; every wider type always fails without sending anything.",
  "C32": "False for bulk_write: duplicate motors are not checked. Proved for bulk_read, for oversized data, and that bulk_write does not panic otherwise.",
  "C35": "False as stated: with a read buffer under 10 bytes the drop of a scan never ends. Proved: it ends otherwise (for every finite port script), and what a scan reports.",
  "C37": "False for arrays: short buffers panic, longer ones are accepted. Proved for integers, and exactly what happens for arrays.",
  "C38": "False as stated: a successful decode also drops the elements it returns. Proved: the failure case, and that on success every element is dropped once too often.",
  "C39": "Stated as: the shortest whole number of nanoseconds in which the bytes can pass the line.",
  "C40": "False as stated: stuffing bytes in the response are not accounted for (at 9600 baud even an instant answer can time out). Proved for responses without stuffing, how much stuffing the 34 ms allowance absorbs, the scan timeout, and that the timeouts are exactly these.",
  "C43": "False for data with unrecognised FF runs (C04) and for clear_error. Proved under the condition of C06 for every other instruction; clear_error is always read as clearing the revolution counter. Instructions with up to seven bytes of parameters are always understood.",
  "C45": "False as stated: BulkWrite becomes BulkRead. Proved: that is the only difference.",
  "C46": "False as stated (C06). Proved: motor errors always arrive, and the parameters are right exactly under the condition of C06. Up to seven bytes of parameters always arrive unchanged.",
  "C50": "A leading plus sign and leading zeros are accepted too; the theorem says exactly what is accepted.",
  "C51": "False as stated: reg_write of an empty array sends a stale byte of the write buffer. Proved for all other calls, including closures and Data implementations of the user that do not look at the old bytes.",
  "C52": "False: the drop always waits for the whole timeout of a scan again, and discards what arrives. Proved: exactly that, and that it does nothing but listen.",
  "C53": "Acknowledgements may come from another motor (C26). Responses to a broadcast ping that arrive after the first timeout are read and thrown away (C52).",
  "C54": "False as stated because of the byte stuffing (finding 1), and for synchronous writes because the simulated motor searches its id among all bytes. Proved when the messages miss the overlooked pattern and no data byte of a synchronous write equals a motor's id; bulk and synchronous reads are not part of the operations (the simulated motor cannot follow the answers of earlier motors). Existence of such executions is proved. Without condition for operations that write up to five and read up to seven bytes.",
  "C55": "False without the condition of C54 on the messages (no pattern overlooked by the byte stuffing), proved under it. Without that condition when at most five bytes are written and at most seven read.",
  "C56": "False without the condition of C54 on the messages (no pattern overlooked by the byte stuffing), proved under it; without condition for values of up to five bytes.",
  "C57": "The behaviour of the operating system and of the crate serial2 is a hypothesis (punctual).",
  "C59": "False as stated for packets too long for the length field (finding 3): a debug build panics, a release build sends them. Proved: the same behaviour with write buffers up to 65540 bytes, and that such a panic is the only difference otherwise. For sending a message the difference is characterised exactly.",
  "C61": "Stated with the simulated motors of the integration tests, which answer one after the other in the order of the list; on a real bus the order is given by the ids. The condition 'every buffer has 16 bytes or more' is part of connected.",
  "C62": "core::fmt is modelled (digits, widths), not part of the repository. The error of the serial port is printed by its own Display, a parameter assumed injective.",
  "C63": "False for writes of data that needs stuffing. Proved: the exact sizes reported in every case, and that they are right for all other writes and for reads.",
  "C64": "False for the bytes shown as skipped garbage when the previous read returned a packet (the log shows that packet's bytes). Everything else is proved, also their number.",
  "C65": "Proved for the lines given to the log macros; the text of a time and of an I/O error are parameters.",
  "C66": "False as stated: if the answer of a motor is missing and the next motor answers at once, every item from the missing motor on is an error (proved in general). Proved for errors, damaged, foreign and wrong answers and for timeouts; an answer that breaks off can also take the next with it.",
  "C67": "False as stated: packets that end in FF FF FD 00 (the last two bytes are the CRC) can keep the reader out of step for ever. Proved for packets without a second header, and that these are exactly the packets (under 65024 bytes) that end in one.",
  "C68": "False as stated: a device cannot see the answers of other devices (Device::read drops status packets), so only the first motor of the list ever answers. Proved: exactly that, with a timeout for each other motor.",
  "C69": "False as stated: a write of FF FF FF FD FD stores FF FF FF FD in a motor that follows the protocol while the client reports success (finding 1), and clear_error reaches no motor (finding 6). Proved for all other calls whose message has no ill-stuffed run of FF bytes, for any behaviour of the motors, single calls and sessions; and that what goes over the line means at most one thing.",
  "C70": "All of it proved except that the panic can always be caught: if next of a sync or bulk read or a scan panics on a malformed message, the iterator is dropped during unwinding and reads on; a second such message makes it panic again, which aborts the process. Proved that this is so only if there is another such message on the line (for a typed sync read: or if the decode function of the user panics for another answer).",
  "C71": "Proved. (That a successful decode also drops the elements it returns is C38.)",
  "C72": "False as stated: Duration::MAX (every sum beyond the last representable Instant) makes make_deadline panic. Proved: exactly when, and that the timeouts the crate computes never do.",
  "C73": "Proved for read, write and iterating a sync_read. False for reg_write and sync_write of types that are not one byte long, and for dropping a sync_read whose decoder may panic; proved for one-byte types and for decoders that do not panic, in particular those of the crate.",
  "C74": "False: the loop in which the simulated motor looks for its entry advances by the length of the data only, so only the motor of the first entry is written, and a motor that is not mentioned panics or hangs. Proved: the client has sent the message, the first motor obeys, what becomes of motors whose id does not occur.",
  "C75": "Proved for every call that waits for one answer (typed reg_write apart), sync and bulk reads, scans and devices. The echo costs the call its answer: the crate offers no way to skip an echo.",
  "C76": "False on a port whose discard_input_buffer is a no-op (which the trait documentation allows): one late answer shifts the answers of all later calls, and with a fixed motor and length every call succeeds with the previous value. Also false for an answer that arrives while the next call is transmitting. Proved: with a working discard each call reports the first status packet after its discard; without one the exact shift, for any number of calls; when it ends (for read_bytes); every other call that waits for one answer likewise takes the late one and leaves its own.",
  "C77": "False for the common order when two endpoints write at the same time (proved otherwise, with the order of the writes). The rest is proved. A read into too small a buffer panics with the mutex locked, after which every write of another endpoint panics.",
  "C78": "Proved for calls for one motor and sync writes, with a client that waits as long as it takes (motors may time out). False if the client gives up: on the test bus, where discard_input_buffer does nothing, a late answer passes for the answer to a later call. Also false: a slow motor may find more bytes waiting than fit, which panics (C77). False for writes to all motors, which the simulated motors acknowledge. A scan on its own is covered with arbitrary timeouts. Sequences that mix scans, sync writes and calls for motors that may be missing are covered for a client that gives up only when nothing goes on any more. The answers to a scan need not fit in the client's buffer (refuted).",
  "C79": "InvalidHeaderPrefix::check panics when the slice differs from the prefix and has fewer than four bytes (the crate itself does not call it); everything else is proved.",
  "C80": "The read function with a port that fills in some bytes and reports any count (FaultyPort.v: its own model of the loop, with the overflow of read_len; the rest shared with Bus.v). Counts that overflow usize: only the bookkeeping theorem (C80_read) applies. The other functions read only through this one.",
  "C81": "All functions of the API, ports with errors and timeouts, any buffer sizes. For any sequence of calls: sufficient conditions; each is shown to be needed by a witness. For single calls that send one message and wait for at most one answer, for one step of each iterator and for dropping it: an exact condition in terms of the bytes of the message, the buffers and the line (typed reg_write/sync_write are not in the exact part; the exact condition for a device reading is in C16). Iterator states are those with index at most the length, as the crate produces. Ports that violate their contract: C80.",
  "C82": "The script made by clap_complete, the texts of shells, paths and errors are parameters. The standard output is a LineWriter with an empty buffer; std's silent acceptance of a closed stdout (EBADF) is not modelled. Unix paths.",
  "C83": "False as stated for long writes whose message the byte stuffing does not protect (finding 1). Proved without condition for pings, scans, numbers of 8, 16 and 32 bits, up to five bytes written and up to seven read; for longer ones under the condition of C06. Reboot (not supported by the simulated motor) and refused commands are in C53 and C65.",
  "C84": "Exact. Addresses from FF00 up are excluded for numbers: there FF bytes of the address join those of the value. For many motors the ids are those of motors (up to 252).",
  "C85": "Exactly-once under retries is refuted (no sequence numbers in the protocol; the client cannot know); true for idempotent commands. Answers that arrive after the call has timed out are the subject of C76 and excluded here. Requests with ill-stuffed FF runs are excluded as in C69.",
  "C86": "A scan needs two timeouts to end (errors other than timeouts do not end it: C35). Answers left over from an earlier call are the subject of C76 and excluded by the assumption on the line. Requests and answers with ill-stuffed FF runs are excluded as in C69 and C84; clear_error as in C29.",
  "C87": "The memory of the bus is one piece with one stack of permissions (the worst case: the buffer lies inside the bus). The references made by AsMut/AsRef of the buffer and by the serial port are those of the code; what user-supplied implementations of these traits do with them is not modelled. Protectors of function arguments are not modelled (nothing is popped while a callee runs).",
  "C88": "True for programs that send before they listen, and for all programs if nothing has been read ahead. False for a device that has read two instructions at once and returned the first: into_serial_port loses the second (so does sending an answer).",
  "C89": "Counts the bytes the client sends; the answers of the motors are the same for reads, and separate writes are acknowledged in addition.",
  "C90": "False for iterators whose length is wrong (ExactSizeIterator is a safe trait); what is sent then is given exactly."
}
