{"id": "C01", "title": "Checksum is the protocol's CRC-16", "statement": "calculate_checksum(initial, data) equals the CRC-16 of the DYNAMIXEL protocol (polynomial x^16+x^15+x^2+1, most significant bit first, no reflection, no final xor) of data started from initial, and the table lookup never goes out of bounds.", "quantifier": "every initial u16 and every byte string of any length", "why_tests_cant": "256 table entries combined over unboundedly long inputs; a test samples a few strings and misses a wrong table entry", "anchors": ["src/checksum.rs:TABLE", "src/checksum.rs:calculate_checksum"]}
{"id": "C02", "title": "Checksum can be computed piecewise", "statement": "The checksum of a concatenation equals the checksum of the second part started from the checksum of the first part.", "quantifier": "every split of every byte string, every initial value", "why_tests_cant": "all splits of all strings", "anchors": ["src/checksum.rs:calculate_checksum"]}
{"id": "C03", "title": "Checksum detects the error classes a CRC-16 promises", "statement": "Two equally long messages that differ in (a) an odd number of bits, (b) exactly two bits less than 32767 bit positions apart, or (c) bits confined to a window of 16 consecutive bits have different checksums. Exactly: two equally long messages have the same checksum if and only if the polynomial of their difference is a multiple of the generator; of two flipped bits, if and only if their distance is a multiple of 32767; of a change within 17 consecutive bits, only if it is the generator itself.", "quantifier": "every message length, every message, every error pattern of the class", "why_tests_cant": "the error patterns are exponentially many and the claim is about all message lengths", "anchors": ["src/checksum.rs:calculate_checksum"]}
{"id": "C04", "title": "Byte stuffing follows the protocol", "statement": "The body of a transmitted message is the instruction byte followed by the parameters, with one 0xFD inserted after every occurrence of FF FF FD and nothing else changed.", "quantifier": "every instruction id and parameter string", "why_tests_cant": "the pattern can overlap itself, repeat and straddle any position; a handful of vectors cannot cover all arrangements", "anchors": ["src/bus/bytestuff.rs:stuffing_required", "src/bus/bytestuff.rs:stuff_inplace", "src/bus/mod.rs:Bus::write_packet"]}
{"id": "C05", "title": "The header prefix never appears inside a stuffed body", "statement": "The transmitted body (instruction and parameters after stuffing) never contains FF FF FD 00, so a receiver that sees that sequence there can rely on it being the start of a packet.", "quantifier": "every instruction id and parameter string", "why_tests_cant": "must hold for all parameter strings", "anchors": ["src/bus/bytestuff.rs:stuff_inplace", "src/bus/mod.rs:HEADER_PREFIX"]}
{"id": "C06", "title": "Stuffing then unstuffing is the identity", "statement": "What this crate's encoder stuffs, this crate's decoder unstuffs back to exactly the original bytes.", "quantifier": "every byte string and every write buffer large enough", "why_tests_cant": "all strings, in particular runs of FF of every length", "anchors": ["src/bus/bytestuff.rs:stuff_inplace", "src/bus/bytestuff.rs:unstuff_inplace"]}
{"id": "C07", "title": "Messages stuffed by a conforming peer are decoded correctly", "statement": "If a peer stuffs a body as the protocol prescribes, the decoder returns exactly the original body.", "quantifier": "every body", "why_tests_cant": "all strings; the peer is a different implementation so a self round-trip test would not notice", "anchors": ["src/bus/bytestuff.rs:unstuff_inplace", "src/bus/mod.rs:Bus::read_packet_deadline"]}
{"id": "C08", "title": "A successful write transmits exactly one well-formed packet", "statement": "When write_instruction or write_status returns Ok, exactly one write_all was made, and its bytes are FF FF FD 00, the packet id, the little-endian length of the rest, the instruction byte (and error byte), the stuffed parameters and the little-endian CRC of everything before it.", "quantifier": "every id, instruction, parameter string, buffer size and prior history of the bus", "why_tests_cant": "every combination of parameters, buffer size and history", "anchors": ["src/bus/mod.rs:Bus::write_packet", "src/bus/mod.rs:Bus::write_instruction", "src/bus/mod.rs:Bus::write_status"]}
{"id": "C09", "title": "The write path reports lack of space instead of panicking", "statement": "Writing a message that fits the write buffer succeeds (as far as the port does), and writing one that does not fit returns BufferTooSmall; it never panics.", "quantifier": "every parameter string and every write buffer size >= 10", "why_tests_cant": "needs every boundary combination of buffer size and number of stuffed bytes", "anchors": ["src/bus/mod.rs:Bus::write_packet", "src/bus/bytestuff.rs:stuff_inplace"]}
{"id": "C10", "title": "The length field always equals the length of what follows", "statement": "For every transmitted packet the two-byte length field equals the number of bytes after it.", "quantifier": "every body size, also beyond 65535 bytes, debug and release builds", "why_tests_cant": "sizes above 64 KiB and both overflow profiles", "anchors": ["src/bus/mod.rs:Bus::write_packet"]}
{"id": "C11", "title": "A rejected write has no effect on the bus", "statement": "If a write returns BufferTooSmall (or the parameter encoder fails), nothing was written or discarded, no received data was lost, and the next operation behaves as if the call had not been made.", "quantifier": "every state, every failing call", "why_tests_cant": "must hold in every state and for every encoder", "anchors": ["src/bus/mod.rs:Bus::write_packet", "src/bus/mod.rs:Bus::write_status"]}
{"id": "C12", "title": "Input is discarded exactly once, before the write, and never after", "statement": "A write discards the port's input buffer exactly once before transmitting; if discarding fails nothing is transmitted and DiscardBuffer is returned; a failing write_all is reported as Write.", "quantifier": "every state and every port behaviour", "why_tests_cant": "fault injection at every I/O point in every state", "anchors": ["src/bus/mod.rs:Bus::write_packet"]}
{"id": "C13", "title": "Stale input is never taken for a response", "statement": "After a write, bytes received (into the internal buffer) before that write can never be part of a packet returned later.", "quantifier": "every prior history and every later port behaviour", "why_tests_cant": "all histories", "anchors": ["src/bus/mod.rs:Bus::write_packet", "src/bus/mod.rs:Bus::read_packet_deadline"]}
{"id": "C14", "title": "Internal buffer bookkeeping stays consistent forever", "statement": "After any sequence of API calls, the number of used bytes is at most the number of valid bytes, which is at most the buffer size; buffer sizes never change; the write buffer still starts with FF FF FD 00.", "quantifier": "every sequence of API calls with any arguments, port answers and failures", "why_tests_cant": "invariant over unbounded histories", "anchors": ["src/bus/mod.rs:Bus", "src/bus/mod.rs:Bus::consume_read_bytes", "src/bus/mod.rs:Bus::remove_garbage", "src/bus/mod.rs:Bus::write_packet"]}
{"id": "C15", "title": "The port is never asked to read into an empty buffer", "statement": "Whenever the crate calls SerialPort::read it passes a non-empty buffer, no larger than the read buffer, so Ok(0) can never be forced by the crate and reading always can make progress.", "quantifier": "every history and every read buffer size", "why_tests_cant": "all histories and sizes", "anchors": ["src/bus/mod.rs:Bus::read_packet_deadline"]}
{"id": "C16", "title": "Reading never panics whatever arrives on the line", "statement": "No byte sequence received, in whatever chunks, makes read_packet / read_status_response / Device::read panic.", "quantifier": "every byte stream, every chunking, every prior state", "why_tests_cant": "the adversary is the whole space of byte streams", "anchors": ["src/bus/mod.rs:Bus::read_packet_deadline", "src/client.rs:Client::read_status_response_timeout", "src/device.rs:Device::read_raw_instruction_timeout"]}
{"id": "C17", "title": "Packet boundaries do not depend on how the bytes arrive", "statement": "The sequence of packets and errors read from a byte stream is the same for every way the port splits the stream into read calls.", "quantifier": "every stream, every split, every buffer size", "why_tests_cant": "exponentially many splits", "anchors": ["src/bus/mod.rs:Bus::read_packet_deadline", "src/bus/mod.rs:find_header"]}
{"id": "C18", "title": "Write then read is the identity over the wire", "statement": "A packet written by this crate and read by this crate (on an otherwise idle line, in any chunks, after any garbage that contains no part of a header) has the same id, instruction, error byte and parameters.", "quantifier": "every id, instruction and parameters, every chunking, every preceding garbage", "why_tests_cant": "all contents and all chunkings", "anchors": ["src/bus/mod.rs:Bus::write_packet", "src/bus/mod.rs:Bus::read_packet_deadline"]}
{"id": "C19", "title": "Back-to-back packets are all delivered, in order, exactly once", "statement": "If n packets arrive back to back, n successive reads return them in order, regardless of chunking.", "quantifier": "every n, every packets, every chunking", "why_tests_cant": "unbounded n and all chunkings", "anchors": ["src/bus/mod.rs:Bus::read_packet_deadline"]}
{"id": "C20", "title": "A timeout or I/O error while reading loses nothing", "statement": "If a read fails with an I/O error (for instance a timeout) the bytes received so far are kept; once the rest arrives a later read returns the packet unharmed.", "quantifier": "every point of the stream where the error hits, any number of errors", "why_tests_cant": "every interruption point", "anchors": ["src/bus/mod.rs:Bus::read_packet_deadline"]}
{"id": "C21", "title": "A packet with a bad checksum is reported and skipped as a whole", "statement": "A framed packet whose CRC does not match yields InvalidChecksum with both values, delivers no data, and the next read continues right after it.", "quantifier": "every packet, every corruption of id, body or CRC, every following data", "why_tests_cant": "all corruptions", "anchors": ["src/bus/mod.rs:Bus::read_packet_deadline"]}
{"id": "C22", "title": "Line corruption never turns into data", "statement": "If a packet's id, body or CRC is corrupted by an odd number of bit flips, by two bit flips (packets up to 4095 bytes), or within 16 consecutive bits of id/body, the read reports InvalidChecksum and never returns a packet for it. Exactly: such a corruption is overlooked if and only if its difference, with the two CRC bytes in the order of the division, is a multiple of the generator; a short burst that reaches into the CRC can be overlooked, because the CRC travels least significant byte first.", "quantifier": "every packet and every such corruption", "why_tests_cant": "all corruptions of all packets", "anchors": ["src/bus/mod.rs:Bus::read_packet_deadline", "src/checksum.rs:calculate_checksum"]}
{"id": "C23", "title": "Oversized packets are reported and do not block the bus", "statement": "A header announcing more bytes than the read buffer holds yields BufferFull with the exact sizes, only the header is dropped, and reading resumes at the next header.", "quantifier": "every length field, every buffer size, every following data", "why_tests_cant": "all lengths and buffer sizes", "anchors": ["src/bus/mod.rs:Bus::read_packet_deadline"]}
{"id": "C24", "title": "Leading garbage is skipped, nothing else is", "statement": "Bytes before the first (possibly partial) header prefix are dropped and no byte from that point on is.", "quantifier": "every stream, every chunking", "why_tests_cant": "all streams", "anchors": ["src/bus/mod.rs:find_header", "src/bus/mod.rs:Bus::remove_garbage"]}
{"id": "C25", "title": "Only matching, error-free status packets are accepted by transfers", "statement": "transfer_single, ping, read, read_bytes return Ok only for a packet that is a status packet, comes from the addressed motor, has error number 0 and (for ping/read) has exactly the requested number of parameters; the returned value contains exactly that packet's content.", "quantifier": "every motor id, every received packet", "why_tests_cant": "all received packets", "anchors": ["src/client.rs:Client::transfer_single", "src/instructions/read.rs:Client::read", "src/instructions/ping.rs:Client::ping"]}
{"id": "C26", "title": "Acknowledgements come from the addressed motor", "statement": "write, write_bytes, reg_write, action, reboot, factory_reset and clear for a unicast id return Ok only if the acknowledging status packet came from that motor.", "quantifier": "every motor id and every response", "why_tests_cant": "all response packets", "anchors": ["src/instructions/mod.rs:read_response_if_not_broadcast", "src/instructions/write.rs:Client::write"]}
{"id": "C27", "title": "Broadcast writes do not wait for a response", "statement": "For motor id 0xFE these functions do not read from the port or make a deadline, and return the fixed pseudo response.", "quantifier": "every argument and state", "why_tests_cant": "every state", "anchors": ["src/instructions/mod.rs:read_response_if_not_broadcast"]}
{"id": "C28", "title": "Motor errors and alerts are separated correctly", "statement": "A status with error number 0 never becomes an error, whatever its alert bit; a non-zero error number always becomes MotorError with the raw byte; alert is exactly bit 7 and error_number the low 7 bits.", "quantifier": "all 256 error bytes and all packets", "why_tests_cant": "all packets", "anchors": ["src/error.rs:MotorError", "src/bus/packet.rs:StatusPacket"]}
{"id": "C29", "title": "Each instruction puts the documented parameters on the wire", "statement": "ping, read, write, reg_write, action, reboot, factory_reset, clear, sync_read, sync_write, bulk_read, bulk_write transmit the instruction id and parameter layout of the protocol (little-endian addresses and counts, one entry per motor in order).", "quantifier": "every argument list, every number of motors and every data", "why_tests_cant": "all arguments", "anchors": ["src/instructions/read.rs", "src/instructions/write.rs", "src/instructions/sync_write.rs", "src/instructions/bulk_write.rs", "src/instructions/bulk_read.rs", "src/instructions/clear.rs"]}
{"id": "C30", "title": "reg_write works for every data type", "statement": "reg_write::<T> registers the encoding of any Data value, like reg_write_bytes with the encoded bytes.", "quantifier": "every Data type and value", "why_tests_cant": "all types", "anchors": ["src/instructions/reg_write.rs:Client::reg_write"]}
{"id": "C31", "title": "sync_write works for every data type", "statement": "sync_write::<T> writes the encoding of any Data value to each motor, like sync_write_bytes with the encoded bytes.", "quantifier": "every Data type, every value list", "why_tests_cant": "all types", "anchors": ["src/instructions/sync_write.rs:Client::sync_write"]}
{"id": "C32", "title": "The same motor may not appear twice in a bulk instruction", "statement": "bulk_read_bytes and bulk_write panic, before any I/O, exactly when a motor id occurs twice (bulk_write also for data longer than 65535 bytes).", "quantifier": "every request list", "why_tests_cant": "all lists", "anchors": ["src/instructions/bulk_read.rs:write_bulk_read_instruction", "src/instructions/bulk_write.rs:Client::bulk_write"]}
{"id": "C33", "title": "Sync/bulk read results belong to the requested motors in order", "statement": "The k-th Ok item of a sync or bulk read carries the id of the k-th requested motor and exactly the requested number of bytes; there are exactly as many items as requested motors; remaining() counts down by one per item; size_hint() bounds the number of items to come, its upper bound is the exact number, and after the last item next() returns None for ever without using the port.", "quantifier": "every motor list, every port behaviour", "why_tests_cant": "all response patterns", "anchors": ["src/instructions/sync_read.rs:SyncRead", "src/instructions/sync_read.rs:SyncReadBytes", "src/instructions/bulk_read.rs:BulkReadBytes", "src/instructions/sync_read.rs:size_hint", "src/instructions/bulk_read.rs:size_hint"]}
{"id": "C34", "title": "Abandoning a sync/bulk read still consumes all responses", "statement": "However many items were taken before the iterator is dropped, in total exactly one status read per requested motor is attempted.", "quantifier": "every number of items taken, every port behaviour", "why_tests_cant": "all abandonment points", "anchors": ["src/instructions/sync_read.rs:Drop", "src/instructions/bulk_read.rs:Drop"]}
{"id": "C35", "title": "Scan ends exactly at the first timeout", "statement": "scan yields every received ping response or error in order and ends with None at the first timeout error; dropping a scan terminates.", "quantifier": "every sequence of port answers and every buffer size", "why_tests_cant": "unbounded sequences; termination", "anchors": ["src/instructions/ping.rs:Scan"]}
{"id": "C36", "title": "Data encoding round-trips", "statement": "decode(encode(v)) = v for every integer type and every (nested) array; encode writes exactly ENCODED_SIZE bytes little-endian and leaves the rest of the buffer alone; a too small buffer is reported.", "quantifier": "every type, every value, every buffer", "why_tests_cant": "all values", "anchors": ["src/bus/data.rs:Data"]}
{"id": "C37", "title": "Decoding checks the number of bytes", "statement": "Data::decode returns an error (never panics, never ignores bytes) when the number of bytes differs from ENCODED_SIZE.", "quantifier": "every Data type of the crate and every byte string", "why_tests_cant": "all lengths and types", "anchors": ["src/bus/data.rs:Data::decode"]}
{"id": "C38", "title": "Decoding an array creates and drops every element exactly once", "statement": "When an array of a user-defined Data type is decoded, each element is owned exactly once: elements of a successful decode are not dropped by the crate, elements of a failed decode are dropped exactly once.", "quantifier": "every array length and every position of failure", "why_tests_cant": "every failure position; double drops are silent in tests with Copy types", "anchors": ["src/bus/data.rs:ArrayInitializer"]}
{"id": "C39", "title": "Transfer time is rounded up and never overflows", "statement": "The computed transfer time is the smallest whole number of nanoseconds not less than 10 bits per byte divided by the baud rate, for every message size and non-zero baud rate, and is monotone in the size.", "quantifier": "all 2^32 sizes times all 2^32-1 baud rates", "why_tests_cant": "2^64 combinations", "anchors": ["src/bus/mod.rs:message_transfer_time"]}
{"id": "C40", "title": "The response timeout is long enough", "statement": "The automatic timeout of read_status_response is at least the time the expected response needs on the line, plus a fixed allowance of 34 ms for the motor.", "quantifier": "every expected parameter count, baud rate and response content", "why_tests_cant": "response content decides the stuffed length", "anchors": ["src/client.rs:Client::read_status_response", "src/bus/mod.rs:message_transfer_time"]}
{"id": "C41", "title": "One deadline governs a whole read", "statement": "Every read_status_response / Device::read call makes exactly one deadline, from the documented timeout, and passes that one to every port read, however many partial reads or skipped packets there are.", "quantifier": "every port behaviour", "why_tests_cant": "unbounded number of partial reads", "anchors": ["src/client.rs:Client::read_status_response_timeout", "src/device.rs:Device::read_raw_instruction_timeout"]}
{"id": "C42", "title": "The device returns exactly the instruction packets", "statement": "Device::read returns the first instruction packet on the line, skips status packets of other devices, and reports errors in order.", "quantifier": "every sequence of packets, every chunking", "why_tests_cant": "unbounded sequences", "anchors": ["src/device.rs:Device::read_raw_instruction_timeout"]}
{"id": "C43", "title": "Client instructions are understood by Device", "statement": "Every instruction the client functions send is parsed by Device::read into the corresponding Instructions value with the same addresses, counts, ids and data.", "quantifier": "every instruction and argument", "why_tests_cant": "all arguments", "anchors": ["src/device.rs:Instruction::try_from", "src/instructions/mod.rs"]}
{"id": "C44", "title": "Malformed instructions are rejected, never misread", "statement": "Parsing an instruction packet returns InvalidParameterCount exactly when the parameters are too few (or not the exact number) for the instruction, and never panics.", "quantifier": "every instruction id and parameter string", "why_tests_cant": "all packets", "anchors": ["src/device.rs:Instruction::try_from"]}
{"id": "C45", "title": "read_owned and read agree", "statement": "Device::read_owned yields the same instruction as Device::read, with owned data.", "quantifier": "every packet", "why_tests_cant": "all instruction kinds and parameters", "anchors": ["src/device.rs:Device::read_owned", "src/device.rs:Instruction::try_from"]}
{"id": "C46", "title": "Device status responses arrive at the client unchanged", "statement": "What a device passes to write_status (id, error, parameters) is what the client's read_status_response returns (or reports as MotorError).", "quantifier": "every id, error byte, parameters and chunking", "why_tests_cant": "all contents", "anchors": ["src/device.rs:Device::write_status", "src/client.rs:Client::read_status_response"]}
{"id": "C47", "title": "A static buffer is handed out at most once", "statement": "However many threads evaluate one static_buffer!() occurrence, in whatever interleaving, exactly one evaluation succeeds and every other one panics.", "quantifier": "every number of threads and every schedule", "why_tests_cant": "all schedules", "anchors": ["src/bus/mod.rs:static_buffer"]}
{"id": "C48", "title": "set_baud_rate is all or nothing", "statement": "set_baud_rate changes the client's baud rate (and all later timeouts) exactly if the port accepted the new rate.", "quantifier": "every state and port answer", "why_tests_cant": "fault injection in every state", "anchors": ["src/bus/mod.rs:Bus::set_baud_rate", "src/client.rs:Client::set_baud_rate"]}
{"id": "C49", "title": "Construction validates the buffers", "statement": "Creating a client panics exactly for a write buffer under 10 bytes; with a smaller read buffer every read reports BufferFull without touching the port.", "quantifier": "all buffer sizes", "why_tests_cant": "all sizes", "anchors": ["src/bus/mod.rs:Bus::with_buffers", "src/bus/mod.rs:Bus::read_packet_deadline"]}
{"id": "C50", "title": "Command line motor ids", "statement": "The command line accepts exactly the decimal numbers 0..255 and the word broadcast in any case as motor id; 254 and broadcast mean the same; read commands reject them before anything is sent.", "quantifier": "every argument string", "why_tests_cant": "all strings", "anchors": ["dynamixel2-cli/src/bin/dynamixel2/options.rs:MotorId::from_str", "dynamixel2-cli/src/bin/dynamixel2/main.rs:do_main"]}
{"id": "C51", "title": "Leftovers in the buffers have no effect", "statement": "What a program of API calls returns and does to the port depends only on the settings, the buffer sizes, the bytes received but not yet handed out, and the answers of the port; not on what else is in the buffers from earlier messages (or from the user), where in the buffer the unread bytes lie, or what happened before.", "quantifier": "every program of API calls, every two histories that agree on these", "why_tests_cant": "a comparison of two arbitrary histories under every later program", "anchors": ["src/bus/mod.rs:Bus", "src/instructions/reg_write.rs:reg_write", "src/instructions/sync_write.rs"]}
{"id": "C52", "title": "A finished scan leaves the bus alone", "statement": "Once a scan has returned None, dropping it makes no further calls on the port.", "quantifier": "every state, every port behaviour", "why_tests_cant": "holds or fails for every state; takes real time on hardware", "anchors": ["src/instructions/ping.rs:Scan::drop", "src/instructions/ping.rs:Scan::scan_next"]}
{"id": "C53", "title": "Each command of the command line tool does what it says", "statement": "Every command sends exactly the packet it stands for (once), reading commands report exactly the value the addressed motor sent, changing commands report success only with an acknowledgement (at once for all motors), and a broadcast ping reports every response that arrives before the first timeout.", "quantifier": "every command with every argument, every port behaviour", "why_tests_cant": "all arguments, all answers and failures", "anchors": ["dynamixel2-cli/src/bin/dynamixel2/main.rs:do_main", "dynamixel2-cli/src/bin/dynamixel2/options.rs:Command"]}
{"id": "C54", "title": "Motors on a bus are memories that can be read and written from a distance", "statement": "With a client and any number of simulated motors (Device plus the control table of the integration tests) with different ids on one wire, every sequence of pings, reads, writes, registered writes, actions, synchronous writes, scans and writes, registered writes and actions for all motors returns the answers, and leaves the memories, that a direct execution on the memories would give: the addressed motor answers, the others stay silent, absent motors lead to a timeout, accesses outside the memory to a motor error; nothing panics and no motor loses track of the traffic of the others.", "quantifier": "all numbers of motors, memories, sequences of operations and cuts of the transmitted bytes into reads", "why_tests_cant": "all sequences, all contents, all fragmentations of the traffic", "anchors": ["src/client.rs", "src/device.rs:Device", "src/instructions/", "tests/common/mock/mock_device.rs:MockDevice", "tests/integration_test.rs"]}
{"id": "C55", "title": "Writes are read back, registered writes wait for the action, other motors are unaffected", "statement": "Reading what was just written returns the bytes written; a registered write changes nothing until an action is sent to the motor and everything then; operations on other motors do not change a motor; what is sent to all motors reaches all of them; a scan finds all motors at any time.", "quantifier": "all memories, addresses, data, sequences of operations, numbers of motors", "why_tests_cant": "all memories and all interleavings of operations", "anchors": ["src/instructions/write.rs", "src/instructions/reg_write.rs", "src/instructions/action.rs", "src/instructions/read.rs", "tests/common/mock/mock_device.rs"]}
{"id": "C56", "title": "Values survive the way to a motor and back", "statement": "read::<T> returns the value whose little endian representation is in the motor's memory, and write::<T> followed by read::<T> at the same address returns the value written, for every number type and array of the crate.", "quantifier": "all types of the crate, values, addresses, memories", "why_tests_cant": "all values of all (nested) types", "anchors": ["src/bus/data.rs:Data", "src/instructions/read.rs:read", "src/instructions/write.rs:write", "tests/common/mock/mock_device.rs"]}
{"id": "C57", "title": "Calls end on time", "statement": "With a real serial port, over an operating system that keeps its read timeouts up to some slack, no call takes longer than the sum of its timeouts, plus the slack once per timeout and the time for computation and for transmitting: however the received bytes are spread over time and reads, and also while the call is still waiting. In particular a call to one motor ends within the transfer time of the expected response plus 34 milliseconds, and the number of reads it makes is bounded; asking n motors at once and taking or dropping their answers ends within n such times.", "quantifier": "every API call, every state, every behaviour in time of the operating system within its contract", "why_tests_cant": "all distributions of the incoming bytes over time, including traffic that never stops", "anchors": ["src/serial_port/serial2.rs:read", "src/serial_port/serial2.rs:make_deadline", "src/bus/mod.rs:read_packet_deadline", "src/client.rs:read_status_response"]}
{"id": "C58", "title": "Synchronous writes of the wrong length are not sent", "statement": "sync_write_bytes never sends anything when the data for some motor does not have exactly count bytes: it panics if the packet would fit (and otherwise returns an error), without any I/O; when all have the right length it does not panic, given room for stuffing.", "quantifier": "every list of motors and data, every state", "why_tests_cant": "all lists, all lengths", "anchors": ["src/instructions/sync_write.rs:sync_write_bytes"]}
{"id": "C59", "title": "Debug and release builds behave the same", "statement": "Every API call returns the same value, makes the same calls on the port and leaves the same state whether the crate is compiled with debug assertions and overflow checks or without; no debug assertion ever fails.", "quantifier": "every reachable state, every API call, every program of calls, every port", "why_tests_cant": "tests run in one profile; equality of two builds is a statement about all inputs", "anchors": ["src/bus/mod.rs:write_packet", "src/bus/mod.rs:consume_read_bytes", "src/bus/mod.rs:remove_garbage", "src/bus/mod.rs:message_transfer_time", "src/bus/bytestuff.rs:stuff_inplace"]}
{"id": "C60", "title": "Larger buffers only help", "statement": "If a call returns anything but an error saying that a buffer is too small, the same call in the same situation with larger read and write buffers returns the same, makes the same calls on the port (except for how the incoming bytes are divided into reads) and leaves the same bytes to process. With a read buffer of 65542 bytes no call that listens ever says that the buffer is too small.", "quantifier": "all states, all API calls that return a result, all pairs of buffer sizes, all ports", "why_tests_cant": "tests use one or two buffer sizes; this compares all pairs of sizes on all inputs", "anchors": ["src/bus/mod.rs:write_packet", "src/bus/mod.rs:read_packet_deadline", "src/bus/mod.rs:with_buffers_and_baud_rate", "src/error.rs:BufferTooSmallError"]}
{"id": "C61", "title": "A scan finds the motors on the bus", "statement": "Scanning a bus with any number of simulated motors with different ids yields one answer for each motor, with its id, model number and firmware version, in the order in which they answer, and nothing else; the iteration ends, dropping it ends, no motor is changed.", "quantifier": "all numbers of motors and ids, all memories, all cuts of the answers into reads, all durations of the silence", "why_tests_cant": "all numbers of motors and all fragmentations of their answers; the tests use two motors", "anchors": ["src/instructions/ping.rs:Scan", "src/device.rs:Device", "tests/common/mock/mock_device.rs:MockDevice"]}
{"id": "C62", "title": "Texts identify errors and values", "statement": "Two different errors never have the same text: the Display implementations of the error types are injective as long as that of the serial port's own errors is. Every number in such a text stands behind the words that say what it is (needed and available sizes, expected and received ids, instructions, counts and header bytes, claimed and computed checksum, motor error). What the command line prints after reading an 8, 16 or 32-bit value denotes that value, in decimal and in hexadecimal with leading zeros.", "quantifier": "all pairs of errors, all values", "why_tests_cant": "all pairs of errors with all field values", "anchors": ["src/error.rs:Display", "dynamixel2-cli/src/bin/dynamixel2/main.rs:do_main"]}
{"id": "C63", "title": "Sizes in buffer errors", "statement": "When a call fails because a buffer is too small, the error names the size that buffer has and a larger size; with a buffer of the size it asks for, the same call (for writes) or the same input (for reads) does not fail that way again.", "quantifier": "every reachable bus, every message and every parameter bytes, every incoming byte stream, every buffer size", "why_tests_cant": "sizes depend on the data through the byte stuffing; tests try a few messages without patterns", "anchors": ["src/error.rs:BufferTooSmallError", "src/bus/mod.rs:Bus::write_packet", "src/bus/mod.rs:Bus::read_packet_deadline", "src/bus/bytestuff.rs:stuff_inplace"]}
{"id": "C64", "title": "The log shows the traffic", "statement": "With the log feature, every packet sent and every complete message received is logged once, in order and with its exact bytes (received messages without the CRC), and the bytes skipped as garbage are counted and shown. Logging has no effect on results, on the bus or on the port, and cannot panic. Different records have different texts.", "quantifier": "every reachable bus, every message, every incoming byte stream in every division into reads, every sequence of writes and reads", "why_tests_cant": "the log is only right if it is for every buffer state a previous call can leave behind; no test looks at it", "anchors": ["src/log.rs", "src/lib.rs", "src/bus/mod.rs:Bus::write_packet", "src/bus/mod.rs:Bus::read_packet_deadline", "src/bus/mod.rs:Bus::remove_garbage", "src/instructions/ping.rs:Scan::scan_next"]}
{"id": "C65", "title": "The command line tells the user the outcome", "statement": "The command line tool ends with exit status 1 exactly when the call of the library failed (or the port could not be opened, or a value was asked of all motors), and its last line is then an error line with the text of the error. Otherwise error lines are printed only for the failed pings of a scan. A warning is printed exactly if the motor has its alert bit set. From the lines shown at any verbosity one can tell the answer: the value, the alert bit, the error, and for a scan every motor and every failure. The line announced before a command names the motor, the address and the value in correct numerals, and the line after it the answer.", "quantifier": "every command with every argument, every reachable or other state of the bus, every input, every verbosity, every text of times without a colon", "why_tests_cant": "the command line has no tests; texts would have to be compared for all pairs of answers", "anchors": ["dynamixel2-cli/src/bin/dynamixel2/main.rs:do_main", "dynamixel2-cli/src/bin/dynamixel2/main.rs:open_client", "dynamixel2-cli/src/bin/dynamixel2/main.rs:log_ping_response", "dynamixel2-cli/src/bin/dynamixel2/logging.rs:init", "dynamixel2-cli/src/bin/dynamixel2/options.rs:MotorId"]}
{"id": "C66", "title": "A failure of one motor in a sync or bulk read stays with that motor", "statement": "In a sync read (raw or typed) or bulk read, whatever goes wrong with the answer of one motor (it reports an error, is damaged, comes from another device, has the wrong length, is not a status packet, does not come in time, or is missing) only the item of that motor is an error: the answers of the other motors are returned as they were sent, and nothing of them is left on the line, also if the iterator is dropped half way.", "quantifier": "every list of requests, every mix of answers and failures, any garbage between the answers, every number of items taken, every state of the bus", "why_tests_cant": "the combinations of failures over all positions in lists of any length are unbounded, and depend on where the answers are cut", "anchors": ["src/instructions/sync_read.rs:SyncReadBytes", "src/instructions/sync_read.rs:SyncRead", "src/instructions/bulk_read.rs:BulkReadBytes", "src/client.rs:read_status_response"]}
{"id": "C67", "title": "The reader finds back to packet boundaries", "statement": "Whatever bytes arrive (a packet that began before the program listened, noise, truncated or damaged packets), packets that follow are received again: of the well-formed packets that follow the junk, all are returned by consecutive reads, in order, except those that begin before as many bytes have arrived as the read buffer holds.", "quantifier": "every sequence of junk bytes (not containing the message of C16 on which reading panics), every sequence of conforming packets that fit the buffer, every size of the buffer, every way the bytes are cut into reads, every state of the bus", "why_tests_cant": "the junk is arbitrary, and can contain headers that announce messages of any length", "anchors": ["src/bus/mod.rs:read_packet_deadline", "src/bus/mod.rs:remove_garbage", "src/bus/mod.rs:find_header"]}
{"id": "C68", "title": "Motors built on the device API take turns in a sync or bulk read", "statement": "If all motors of a sync read or bulk read are simulated motors of the crate (built on the device API), every motor answers after the motor that is listed before it, and the client gets the answer of every motor in the order of the list.", "quantifier": "every list of motors on the bus, every address and count, every content of the memories, every order in which the devices run and every way the bytes are cut, every state of client and motors", "why_tests_cant": "needs a closed loop of client and several devices in all interleavings; the tests of the crate that read from several simulated motors only record (with should_panic) that something fails", "anchors": ["src/device.rs:Device::read", "src/device.rs:Device::read_raw_instruction_timeout", "src/instructions/sync_read.rs", "src/instructions/bulk_read.rs", "tests/common/mock/mock_device.rs:MockDevice::run"]}
{"id": "C69", "title": "The client is a remote control for motors that follow the protocol", "statement": "Whatever the motors on a line do, as long as they follow Protocol 2.0 (read whole messages with the right CRC, remove the stuffing, obey the instructions that are for them, answer in turn), a call on the client makes exactly the motors it addresses carry out exactly the command it stands for, and no other motor anything.  It returns what the addressed motor answered, or their answers in the order of the list, with a timeout for each answer that does not come.  The same holds for any number of calls one after the other.", "quantifier": "every behaviour of motors (any state, any answer or none), every set of motors on the line, every kind of call with all arguments, every buffer size of at least 16 bytes, every way the bytes are cut into reads, every sequence of calls", "why_tests_cant": "the behaviour of motors is arbitrary and so are data, states and sequences of calls; a test fixes one simulated motor, and the simulated motor of the crate shares the encoder and parser of the client", "anchors": ["src/instructions/read.rs", "src/instructions/write.rs", "src/instructions/sync_read.rs", "src/instructions/bulk_write.rs", "src/instructions/clear.rs", "src/client.rs:Client::write_instruction", "src/client.rs:Client::read_status_response_timeout", "src/bus/bytestuff.rs:stuff_inplace"]}
{"id": "C70", "title": "Life goes on after a caught panic", "statement": "If a call on a client or device panics (because of a message on the line, a closure or Data implementation of the user, or arguments that do not fit) and the user catches the panic, the client or device goes on as if nothing had happened: its bookkeeping is consistent, whatever the panic left in the buffers has no effect, a call that panicked before sending has sent and discarded nothing, a read that panicked has consumed the message that made it panic and nothing else, and later calls do what they should.  The panic can always be caught.", "quantifier": "every sequence of calls of the API that return or panic, every content of the buffers a panic can leave behind, every program that follows, every behaviour of motors, port and user closures", "why_tests_cant": "needs all points at which a call can panic, in every state; the consequences show only in later calls", "anchors": ["src/bus/mod.rs:read_packet_deadline", "src/bus/mod.rs:write_packet", "src/instructions/sync_read.rs:Drop", "src/instructions/bulk_read.rs:Drop"]}
{"id": "C71", "title": "Array decoding uses its memory correctly", "statement": "Decoding an array never reads or drops an element that was not created and never accesses memory outside the array, whatever the decode function of the element type does (including errors and panics).  If it does not return an array, every element created so far is dropped exactly once.", "quantifier": "every element type (every user implementation of Data, also panicking ones), every array length, every input, debug and release builds", "why_tests_cant": "undefined behaviour need not show in a test; needs all element types and all points of failure", "anchors": ["src/bus/data.rs:ArrayInitializer", "src/bus/data.rs:impl Data for [T; N]"]}
{"id": "C72", "title": "Any timeout can be used with a real serial port", "statement": "With a serial2 port, a user can pass any Duration as timeout (for example the largest one, to wait without limit), and the timeouts the crate computes itself are always accepted.", "quantifier": "every Duration, every moment, every baud rate from 1, every number of expected parameters", "why_tests_cant": "depends on the clock and on values at the end of the range of Duration and Instant", "anchors": ["src/serial_port/serial2.rs:make_deadline", "src/client.rs:read_status_response_timeout", "src/device.rs:read"]}
{"id": "C73", "title": "Typed and untyped calls agree", "statement": "The typed form of a call does what the untyped form does: read::<T> is read_bytes of the size of T followed by T::decode, sync_read::<T> yields the responses of sync_read_bytes decoded one by one and dropping it early has the same effect, write, reg_write and sync_write of a value are write_bytes, reg_write_bytes and sync_write_bytes of its encoding. The calls on the serial port, the result and the state afterwards are the same.", "quantifier": "every Data implementation, value, motor, address, state of the client and behaviour of the serial port", "why_tests_cant": "two programs are compared on all states and all behaviours of the port, including errors and malformed responses", "anchors": ["src/instructions/read.rs:read", "src/instructions/read.rs:read_bytes", "src/instructions/write.rs:write", "src/instructions/reg_write.rs:reg_write", "src/instructions/sync_write.rs:sync_write", "src/instructions/sync_read.rs:SyncRead", "src/instructions/sync_read.rs:SyncReadBytes", "src/bus/data.rs:decode_status_packet"]}
{"id": "C74", "title": "A bulk write reaches every motor it names", "statement": "When the client sends a bulk write to the simulated motors of the test suite over a shared line, bulk_write returns Ok, every motor named in it has the data in its memory at the given address, and the other motors are unchanged.", "quantifier": "every set of simulated motors with distinct ids, every list of entries with distinct motors that fits, every way the bytes are cut into reads", "why_tests_cant": "the integration tests never send a bulk write; the outcome depends on the lengths and contents of all entries", "anchors": ["src/instructions/bulk_write.rs:bulk_write", "src/device.rs:Device::read", "tests/common/mock/mock_device.rs:MockDevice::run"]}
{"id": "C75", "title": "An echo is never taken for an answer", "statement": "On a line that returns what the client transmits, a call that waits for the answer of a motor never succeeds because of its own message: it returns an error that names its own instruction, and leaves what follows unread. In a sync or bulk read no motor is reported as read from the answer of another. A scan reports the echo as one error and still finds the motors. A device ignores the echo of its own status packets.", "quantifier": "every call that waits for one answer, every message that fits, every noise before the echo, everything that follows it; every list of motors; every status packet of a device", "why_tests_cant": "the tests connect client and devices by separate channels, so an echo never occurs; the echo depends on all contents of the message", "anchors": ["src/bus/mod.rs:Bus::read_packet_deadline", "src/client.rs:Client::read_status_response_timeout", "src/instructions/sync_read.rs:SyncReadBytes::next", "src/instructions/bulk_read.rs:BulkReadBytes::next", "src/instructions/ping.rs:Scan::scan_next", "src/device.rs:Device::read"]}
{"id": "C76", "title": "Each call gets the answer to its own request, also after an answer came too late", "statement": "When a call has given up waiting and the answer arrives afterwards, the following calls still report the answers to their own requests, not the late one and not that of the call before.", "quantifier": "every number of following calls, every queried motor, address and length, every contents of the answers, every prior state; ports on which discard_input_buffer works and ports on which it is the no-op that the trait allows", "why_tests_cant": "the effect depends on when an answer arrives relative to the calls, and lasts over an unbounded number of calls; the test suite has no late answers", "anchors": ["src/serial_port/mod.rs:SerialPort::discard_input_buffer", "src/bus/mod.rs:Bus::write_instruction", "src/bus/mod.rs:Bus::read_packet_deadline", "src/instructions/read.rs:read_bytes", "tests/common/mock/mock_serial_port.rs:MockSerial::discard_input_buffer"]}
{"id": "C77", "title": "The bus of the integration tests carries every message to everybody else", "statement": "On the shared bus that the integration tests put between client and simulated motors, every endpoint reads exactly the messages that the others write: each whole and once, those of one sender in order, never its own; all endpoints read them in the same order; writing never waits for another thread, and does not panic unless a read has panicked.", "quantifier": "every number of endpoints, every interleaving of the threads, every sequence of writes, reads and timeouts", "why_tests_cant": "the tests run on this bus and see one interleaving per run; they cannot tell a fault of the bus from one of the crate", "anchors": ["tests/common/mock/mock_serial_port.rs:MockSerial", "tests/common/mock/mock_serial_port.rs:SharedBuffer", "tests/common/mock/mod.rs:new_client_device"]}
{"id": "C78", "title": "Client and simulated motors in their own threads behave like calls on the motors' memories", "statement": "In the setup of the integration tests (a client and any number of simulated motors, each in its own thread, on the shared test bus) the results of the client's calls are those of the same calls made one after the other on the motors' memories; every motor carries out the same sequence of calls; the threads never deadlock; reads do not find more bytes than fit.", "quantifier": "every interleaving of the threads, every number of motors, every memory contents, every sequence of calls for single motors (present or not), sync writes and scans, every buffer size that fits the messages, motors giving up waiting at any time, the client giving up when nothing goes on any more", "why_tests_cant": "each test run sees one interleaving and one sequence of calls; a wrong interleaving would show up as a flaky test", "anchors": ["tests/common/mock/mod.rs:new_client_device", "tests/common/mock/mock_device.rs:MockDevice::run", "tests/common/mock/mock_serial_port.rs:MockSerial", "src/client.rs:Client", "src/device.rs:Device::read", "src/bus/mod.rs:Bus"]}
{"id": "C79", "title": "Checks of the error types are exact and conversions keep what an error says", "statement": "The public check functions of the error types return Ok exactly when the values match (or are within the limit) and otherwise an error with exactly the values compared, without panicking; converting an error to a wider error type keeps its values, and gives the same result whether done in one step or several.", "quantifier": "every argument of every check, every error value and every chain of From conversions", "why_tests_cant": "all values of all arguments; the conversions happen implicitly through the ? operator", "anchors": ["src/error.rs:InvalidHeaderPrefix::check", "src/error.rs:InvalidPacketId::check_ignore_broadcast", "src/error.rs:InvalidParameterCount", "src/error.rs:BufferTooSmallError::check", "src/error.rs:TransferError", "src/error.rs:ReadError", "src/error.rs:InvalidMessage"]}
{"id": "C80", "title": "A serial port that reports wrong counts cannot corrupt a client", "statement": "A SerialPort implementation whose read reports a number of bytes other than it filled in does no lasting harm: as long as the number fits the buffer, reading behaves as with a correct port that delivers the bytes in the buffer; if it does not fit, the call panics, later reads panic without touching the port, and the next call that sends works as on a fresh client.", "quantifier": "every sequence of answers of the port with any filled bytes and any counts (including ones that overflow usize), every state of the client, both build profiles", "why_tests_cant": "the tests use one correct port; a wrong third-party implementation of the trait can answer anything", "anchors": ["src/serial_port/mod.rs:SerialPort::read", "src/bus/mod.rs:Bus::read_packet_deadline", "src/bus/mod.rs:Bus::remove_garbage", "src/bus/mod.rs:Bus::write_packet"]}
{"id": "C81", "title": "No call panics without a known reason", "statement": "Whatever the serial port does and whatever happened before (including caught panics), a call of the client, device or iterator API does not panic if: the baud rate is not zero; the message either does not fit the write buffer at all (then the call returns an error) or fits with the worst-case stuffing and its length fits 16 bits; closures and Data implementations of the user do not panic themselves; the documented conditions on sync_write_bytes, bulk_write and bulk_read_bytes hold; and no message without the bytes a client or device looks at (empty, or a status without error byte) arrives. The same holds for every sequence of such calls on a new client. Each condition is needed. For calls that transmit one message and wait for nothing or for one answer, and for each step of an iterator, the condition is exact: they panic if and only if the length of the message overflows, or its bytes fit the write buffer but not the checksum behind them, or they wait (the message was transmitted, an answer is due) and the baud rate is zero or the first message to come in is one without the bytes the client looks at. Dropping the iterator of a sync read, bulk read or scan panics if and only if taking its remaining elements would come to such a point.", "quantifier": "every call of the API with every argument of its Rust types, every state a client can get into, every serial port behaviour (errors, timeouts, any bytes not containing such a message), every buffer size, both build profiles; for the exact condition also every message content and every byte that comes in", "why_tests_cant": "absence of panics is a statement about all inputs, buffer sizes and port behaviours at once; the tests run a few calls on one bus", "anchors": ["src/client.rs:Client", "src/device.rs:Device", "src/bus/mod.rs:Bus::write_packet", "src/bus/mod.rs:Bus::read_packet_deadline", "src/instructions/sync_read.rs", "src/instructions/bulk_read.rs", "src/instructions/ping.rs:Scan"]}
{"id": "C82", "title": "Shell completions arrive whole or the user is told", "statement": "The command shell-completion without a path, or with one that denotes '-', writes to the standard output and touches no file; with any other path it writes to that file and nothing to the standard output. It succeeds exactly if the file could be created and the system took all bytes (in any number of partial and interrupted writes); then exactly the generated script has arrived, with its last line ended by a line break. Otherwise the exit status is 1, an error line names the place, and what arrived is a proper part of the script from its start.", "quantifier": "every generated script, every path, every sequence of partial, interrupted and failing writes", "why_tests_cant": "the command line has no tests; partial writes, interruptions and full disks cannot be produced on demand", "anchors": ["dynamixel2-cli/src/bin/dynamixel2/main.rs:write_shell_completion", "dynamixel2-cli/src/bin/dynamixel2/main.rs:do_main", "dynamixel2-cli/src/bin/dynamixel2/options.rs:Command::ShellCompletion"]}
{"id": "C83", "title": "The command line tool is a remote control for the motors", "statement": "Runs of the command line tool, one after the other, on a bus with simulated motors: every ping, scan, read and write command has exactly the effect on the motors' memories that it stands for (the addressed motor or, for a broadcast, every motor; nothing else changes), and the lines and the exit status report the answer: the number or the bytes read in correct numerals, Ok, the motors found with their model and firmware, or the error with exit status 1. A number written with write8, write16 or write32 is the number shown by the matching read command.", "quantifier": "every set of motors with different ids, every sequence of commands with arguments of the right type, every contents of memory, every way the bytes are cut into reads", "why_tests_cant": "the tool has no tests, and the composition of option, library, wire, motor and text ranges over all values and sequences", "anchors": ["dynamixel2-cli/src/bin/dynamixel2/main.rs:do_main", "dynamixel2-cli/src/bin/dynamixel2/main.rs:log_ping_response", "dynamixel2-cli/src/bin/dynamixel2/options.rs:MotorId", "tests/mock_device.rs", "src/client.rs:Client"]}
{"id": "C84", "title": "Exactly which data can be exchanged with motors that follow the protocol", "statement": "What a call transmits is the packet the protocol prescribes for its contents if and only if every maximal run of two or more FF bytes that is directly followed by FD has a length of 2, 5, 8, ... (and the packet is not too long for the length field). When a motor that follows the protocol answers a read with the requested number of bytes and no error, the client returns exactly these bytes under the same condition on the data, and otherwise reports an invalid parameter count; it never returns other data. For integers of 1, 2 and 4 bytes this excludes a single value: 4261412863 as u32 and -33554433 as i32 (bytes FF FF FF FD) is neither written as the protocol demands nor can it be read; all other values can, at every address below FF00. The same holds for calls to many motors: a sync write or bulk write is the packet of the protocol if and only if the condition holds for the data of each motor separately (for goal positions: no motor is sent the one value), and each item of a sync read or bulk read is either exactly the data of the motor asked or the error about the parameter count, without effect on the items after it.", "quantifier": "every call with every argument in every reachable state; every answer of every motor after any garbage, all values of the integer types; any number of motors and any data per motor", "why_tests_cant": "the one value in four billion that fails is not found by sampling, and that there is no other is a statement about all of them", "anchors": ["src/bus/bytestuff.rs", "src/bus/mod.rs:write_instruction", "src/bus/mod.rs:read_packet_deadline", "src/instructions/read.rs", "src/instructions/write.rs", "src/bus/data.rs:Data", "src/instructions/sync_read.rs", "src/instructions/sync_write.rs", "src/instructions/bulk_read.rs", "src/instructions/bulk_write.rs"]}
{"id": "C85", "title": "On a disturbed line no call reports what a motor did not send, and trying again is safe", "statement": "Messages may be damaged on the line in either direction, in any way that the checksum shows, or replaced by arbitrary noise that contains no valid message, or lost. A motor that follows the protocol does nothing when it hears such a message. For every call that addresses one motor (ping, read, write, reg write, action, reset, reboot, clear multi-turn revolutions): either the command was carried out once and the user is told exactly what the motor answered, or the user is told that reading the answer failed and the command was carried out once or not at all. It never blocks or panics. Sequences of such calls behave like this call by call. Trying again until an attempt succeeds leaves the motors as if the command had been carried out exactly once, provided that doing it twice is the same as doing it once. Without this condition it does not: the answer to an attempt that was carried out may be lost.", "quantifier": "every such call with any arguments in every ready state, every behaviour of the motors, every damage and noise in both directions, any number of calls", "why_tests_cant": "there are too many ways to disturb a line, and the mock serial port of the tests never does", "anchors": ["src/bus/mod.rs:read_packet_deadline", "src/bus/mod.rs:read_status_response", "src/client.rs", "src/checksum.rs", "src/instructions/"]}
{"id": "C86", "title": "Whatever happens on the line, every call to any number of motors is truthful", "statement": "Each motor may hear something different of what the client transmits, or nothing. The client may receive any bytes and any errors of the serial port, at any time. The only assumption is that no instruction or status packet with a correct checksum appears that nobody has sent (and no packet without contents). Then for every call, also those to several motors: every motor has carried out its part once or not at all. Every value, acknowledgement and motor error the user is told has been sent by a motor in answer to this call, as the protocol understands it. Sync and bulk reads report one result per motor, each attributed to the motor that sent it. No call panics, and every call ends once the port has reported enough errors: a scan (with its iterator dropped) after two timeouts, a sync or bulk read after one error per motor, any other call after one. A command to one motor that the user is told succeeded has been carried out exactly once. The same is true of each call of any sequence of calls.", "quantifier": "every call with any arguments in every ready state, any number of motors of any behaviour, every content of the line, any number of calls", "why_tests_cant": "the tests use a mock port that delivers one well-formed answer", "anchors": ["src/bus/mod.rs:read_packet_deadline", "src/bus/mod.rs:read_status_response", "src/client.rs", "src/instructions/ping.rs", "src/instructions/sync_read.rs", "src/instructions/bulk_read.rs"]}
{"id": "C87", "title": "References into the read buffer made by unsafe code are never used too long", "statement": "Waiting for an instruction reads packet after packet into the same buffer, through references that unsafe code makes. No reference is used after a later use of the buffer has ended it: there is no undefined behaviour by the rules of Stacked Borrows, whatever arrives and however many status packets are skipped. The result is the same as if packets were copies. The packet that is returned shows exactly its own bytes, as a whole and in any parts, as often as and in whatever order it is looked at, until the device is used again (and not after that, so the borrow the compiler sees is not too short). The same for any number of reads, each followed by any use of its result.", "quantifier": "every state of the device, every content of the line, every timeout, every sequence of reads and uses of the packets read", "why_tests_cant": "undefined behaviour need not show in a test, and the loop goes around as often as other motors answer", "anchors": ["src/device.rs:read_raw_instruction_timeout", "src/bus/mod.rs:read_packet_deadline", "src/bus/packet.rs:as_instruction"]}
{"id": "C88", "title": "Using the serial port directly, and giving it up", "statement": "The serial port of a client may be used directly between calls, and it may be taken out of the client and given to a new one. Whatever state the port is left in: a program that sends a message before it listens behaves exactly like one that uses a new client (same buffer sizes and baud rate) on that port: the same results and the same calls on the port, for everything it does afterwards. Data that had been read ahead has no effect. The same for a device that sends first, and for every program if nothing has been read ahead. It is documented for devices in the same words, but a device listens first: what it has read ahead is lost when the port is given up.", "quantifier": "every reachable client or device, every state of the port, every program of any number of calls chosen from the results before", "why_tests_cant": "no test takes the port back or uses it directly, and the data read ahead depends on timing", "anchors": ["src/client.rs:serial_port", "src/client.rs:into_serial_port", "src/device.rs:serial_port", "src/device.rs:into_serial_port", "src/bus/mod.rs:write_packet"]}
{"id": "C89", "title": "One message to many motors is shorter than a message to each", "statement": "The documentation promises shorter delays of sync and bulk writes than of separate writes. For n motors with valid ids, and addresses and sizes below FD00, the number of bytes on the line, stuffing included, is smaller by exactly 11 n - 14 for a sync write, 7 n - 10 for a bulk write, 13 n - 14 for a sync read and 9 n - 10 for a bulk read, compared to the same writes or reads sent separately: one message pays from two motors on, and costs 3 (or 1) bytes more for one motor. For arbitrary ids and addresses a sync write to two or more motors is still shorter, and a bulk write (with valid ids) never longer.", "quantifier": "any number of motors, all data, all addresses, every state of the client in which the calls are made", "why_tests_cant": "stuffing depends on the data and on where entries meet; tests check a few messages", "anchors": ["src/instructions/sync_write.rs", "src/instructions/bulk_write.rs", "src/instructions/sync_read.rs", "src/instructions/bulk_read.rs", "src/bus/bytestuff.rs:stuffing_required"]}
{"id": "C90", "title": "Motors get the commands the caller gave", "statement": "A sync write or bulk write sends the commands it was given and no others, whatever the iterator passed to it does. With iterators that keep their promises this holds (C15, C55); with others it is false: the length is taken from ExactSizeIterator::len, and when the iterator gives fewer commands the missing ones are made up from whatever lies in the write buffer, that is from the message sent before, and the call succeeds. When it gives more commands than announced, or one of the wrong size, nothing is sent. A bulk write goes through its iterator twice: it sends what the second pass gives, filled up from the write buffer if that is less than in the first, and sends nothing if it is more. Likewise a value whose encode, or a closure, that leaves part of its buffer alone sends what was there before.", "quantifier": "all announced lengths, all commands given, all states of the client, both passes of a bulk write arbitrary", "why_tests_cant": "tests pass arrays and slices, whose length is right; what is sent otherwise depends on all earlier messages", "anchors": ["src/instructions/sync_write.rs:sync_write_bytes", "src/instructions/sync_write.rs:sync_write", "src/instructions/bulk_write.rs:bulk_write", "src/instructions/write.rs:write", "src/instructions/reg_write.rs:reg_write"]}
{"id": "C91", "title": "The command line tool shows the traffic when asked", "statement": "With -vv the tool shows every packet it gives to the serial port (the one the command asks for), byte for byte, in order, and no others, whether the command succeeds, fails or panics; after a successful command it also shows the message it took as the answer, which says what the tool reports, and after a scan all messages that came, each right before the lines saying what is in it; an order for all motors shows no answer. With fewer options none of this is shown. Bytes skipped before the answer are counted with one -v, which shows nothing else besides the line saying what is going to be done, and are shown with -vv. First comes the line saying what is going to be done, then the traffic, then what came of it. The records of the library change neither what the command does nor what the user is told without them, and are never marked as errors or warnings.", "quantifier": "all commands, all reachable states of the client, all incoming byte streams, all numbers of -v options", "why_tests_cant": "there are no tests of the tool; which records are made depends on the whole run of the command, including runs that end early", "anchors": ["dynamixel2-cli/src/bin/dynamixel2/main.rs:do_main", "dynamixel2-cli/src/bin/dynamixel2/logging.rs:init", "src/log.rs", "src/bus/mod.rs:Bus::write_packet", "src/bus/mod.rs:Bus::read_packet_deadline"]}
