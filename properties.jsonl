{"id": "C01", "title": "32-bit length prefix round trip", "statement": "For every message length 0 <= n < 2^31, decode32 applied to encode32(n) followed by any bytes returns exactly (number of prefix bytes, n); two different lengths never share a prefix, so the receiver can never mis-frame a stream. Every other integer makes encode32 raise ValueError.", "quantifier": "all integers n, all trailing byte strings", "why_tests_cant": "2^31 lengths times arbitrary trailing data; the existing tests check a handful of boundary values", "anchors": ["numheader.py: encode32, decode32, _encode, _decode"]}
{"id": "C02", "title": "16-bit length prefix is a bijection", "statement": "encode16 accepts exactly 0..32895 (ValueError outside), decode16 inverts it whatever bytes follow, and every complete prefix that decode16 accepts is the one encode16 produces: there is exactly one encoding per value.", "quantifier": "all integers, all byte strings", "why_tests_cant": "the claim ranges over every byte string as well as every value; tests sample a few values", "anchors": ["numheader.py: encode16, decode16, _encode, _decode"]}
{"id": "C03", "title": "A truncated length prefix is never mistaken for a value", "statement": "Decoding any strict prefix of an encoded length (including the empty string) reports that more bytes are needed, (0, None), and decoding never consumes more bytes than are available.", "quantifier": "all lengths, all truncation points, all byte strings", "why_tests_cant": "every truncation point of every value is a possible TCP chunk boundary", "anchors": ["numheader.py: _decode"]}
{"id": "C04", "title": "RemoteFile message header round trip", "statement": "For every address 0 <= a < 2^30, both values of the more bit and every payload, unpackHeader(packHeader(a, more) + payload) returns the header length, the same address and the same more bit, provided at least one payload byte follows a 4-byte header; addresses of 2^30 and above are refused with ValueError.", "quantifier": "all addresses, both more-bit values, all payloads", "why_tests_cant": "2^31 header values times arbitrary payloads", "anchors": ["remotefile/__init__.py: packHeader, unpackHeader"]}
{"id": "C05", "title": "A RemoteFile header alone is parsed back", "statement": "unpackHeader(packHeader(a, more)) with nothing after the header gives back the address for every valid a. (Refuted: a bare 4-byte header is reported as incomplete.)", "quantifier": "all addresses 0 <= a < 2^30", "why_tests_cant": "the failing cases are exactly the addresses >= 16384, a boundary no existing test touches", "anchors": ["remotefile/__init__.py: unpackHeader"]}
{"id": "C06", "title": "File announcement round trip", "statement": "unpackFileInfo(packFileInfo(f)) reproduces name, address, length, file type, digest type and digest data of every file whose fields fit the wire format (32-bit address and length, 16-bit types, 32-byte digest, ASCII name without NUL), for both byte orders; files whose numeric fields do not fit are refused, never silently wrapped.", "quantifier": "all file descriptions, both byte orders", "why_tests_cant": "the space of names and field values is unbounded", "anchors": ["remotefile/__init__.py: packFileInfo, unpackFileInfo"]}
{"id": "C07", "title": "File open and close commands round trip", "statement": "unpackFileOpen(packFileOpen(a)) = a for every 32-bit address, anything that is not an 8-byte OPEN command yields None or a ValueError; likewise for close. (The close half is refuted: unpackFileClose raises NameError on every 8-byte message.)", "quantifier": "all addresses, all byte strings, both byte orders", "why_tests_cant": "tests would have to enumerate all 2^32 addresses and all malformed messages", "anchors": ["remotefile/__init__.py: packFileOpen, unpackFileOpen, packFileClose, unpackFileClose"]}
{"id": "C08", "title": "Message reassembly does not depend on TCP chunking", "statement": "However the received byte stream is cut into chunks, the socket adapter delivers the same sequence of messages to the file manager, ends in the same connection state, keeps the same unread tail, and fails on the same message if the handler raises.", "quantifier": "all byte streams, all ways of splitting them into chunks, all message handlers", "why_tests_cant": "exponentially many splits of every stream", "anchors": ["remotefile/socket_adapter.py: TcpSocketAdapter.worker, _parseData, _parseMessage"]}
{"id": "C09", "title": "Every sent message arrives once, whole and in order", "statement": "If a peer sends the acknowledge followed by any list of messages (each shorter than 2^31 bytes) and the stream is delivered in arbitrary chunks, possibly cut in the middle of a last message, the receiver gets exactly the complete messages, in order, unchanged; nothing is delivered before the acknowledge, and a first message that is not the acknowledge is rejected.", "quantifier": "all message lists, all chunkings, all cut points", "why_tests_cant": "unbounded message lists and chunkings", "anchors": ["remotefile/socket_adapter.py: send, _parseData, _parseMessage, connect"]}
{"id": "C10", "title": "File address allocation is disjoint, ordered, aligned and in range", "statement": "After any sequence of insertions of non-empty files (each object once) whose address is left to the file map, interleaved with removals, all files in the map are ordered by address, no two share a byte, each address is a multiple of the boundary of its class (1 KiB for .in/.out, 1 MiB otherwise), and each file lies completely inside the region of its class, below the command area. (With empty files, or when a removed file object is inserted again, files can overlap: refuted.)", "quantifier": "all sequences of insert/remove operations, all file names and lengths", "why_tests_cant": "histories are unbounded", "anchors": ["apx/file_map.py: FileMap.insert, remove, _assignFileAddressDefault, assignFileAddress"]}
{"id": "C11", "title": "File insertion succeeds whenever there is room", "statement": "insert never raises for a file that still fits behind the last file of its region. (Refuted: inserting a definition file first and a port data file afterwards raises UnboundLocalError; the exact set of failing states is characterised.)", "quantifier": "all reachable file maps, all files", "why_tests_cant": "needs all orders of insertion", "anchors": ["apx/file_map.py: assignFileAddress"]}
{"id": "C12", "title": "Address lookup is exact", "statement": "findByAddress(a) returns the unique file whose range contains a if there is one and None otherwise, for every map built by insert/remove of non-empty files. (With empty files the lookup can miss a file that contains the address.)", "quantifier": "all reachable file maps, all addresses", "why_tests_cant": "all addresses times all histories", "anchors": ["apx/file_map.py: findByAddress"]}
{"id": "C13", "title": "Name lookup finds any file in the map", "statement": "findByName(n) returns a file with that name whenever the map contains one. (Refuted: only the file with the lowest address is ever considered.)", "quantifier": "all file maps, all names", "why_tests_cant": "the defect is invisible in one-file maps, which is what tests use", "anchors": ["apx/file_map.py: findByName"]}
{"id": "C14", "title": "File removal removes exactly that file", "statement": "After remove(f) of a file that is in the map, the map contains the same other files in the same order, and lookups in f's range find nothing; removing a file that is not in the map raises ValueError and changes nothing; files that bring their own addresses, also several at one address, are inserted in order of address and removed one by one.", "quantifier": "all reachable file maps, all files", "why_tests_cant": "all histories", "anchors": ["apx/file_map.py: remove, index"]}
{"id": "C15", "title": "A file behaves like a fixed-size memory", "statement": "A write inside the bounds changes exactly the addressed bytes and returns the number of bytes written; a write outside the bounds returns -1 and changes nothing; a read inside the bounds returns the current bytes; a read that starts before or ends behind the file returns None; no sequence of operations ever changes the file length.", "quantifier": "all file contents, all sequences of reads and writes, all offsets and lengths", "why_tests_cant": "unbounded operation histories", "anchors": ["apx/file.py: File.read, File.write, InputFile.write, OutputFile.write"]}
{"id": "C16", "title": "Input file notification", "statement": "After a remote write sequence that ends with a final fragment the node data handler has been told about every byte that was changed. (Refuted for fragmented writes: only the last fragment's range is reported; proved: an unfragmented in-bounds write reports exactly its range, an out-of-bounds write or a more-bit write reports nothing.)", "quantifier": "all sequences of fragments", "why_tests_cant": "all fragmentations of all writes", "anchors": ["apx/file.py: InputFile.write"]}
{"id": "C17", "title": "Output file notification", "statement": "A local write to an output file is forwarded to the file manager if and only if it is in bounds and the file has been opened by the peer, with the exact offset and length that was written.", "quantifier": "all writes in all file states", "why_tests_cant": "all offsets, lengths and states", "anchors": ["apx/file.py: OutputFile.write", "remotefile/__init__.py: outPortDataWriteNotify"]}
{"id": "C18", "title": "Connection start-up order", "statement": "When a connection is established, the first thing transmitted is nothing but one announcement for each local file, in address order, each decodable by the peer to the file's name, address and length; nothing is transmitted before connection.", "quantifier": "all sets of local files, all earlier histories", "why_tests_cant": "all histories before the connect event", "anchors": ["remotefile/__init__.py: FileManager.onConnected, worker thread"]}
{"id": "C19", "title": "Remote replica converges", "statement": "For every sequence of local writes (including out-of-bounds ones) interleaved with open requests, once the peer has opened a local file, applying the transmitted data messages to a replica in order makes the replica equal to the local file.", "quantifier": "all interleavings of open requests and writes", "why_tests_cant": "unbounded histories of writes", "anchors": ["remotefile/__init__.py: FileManager._processCmd, outPortDataWriteNotify, worker", "apx/file.py: OutputFile.write"]}
{"id": "C20", "title": "Remote writes touch only the addressed open file", "statement": "A data message changes at most one file: the remote file whose range contains the address, only if it is open and only the addressed bytes and only if they all fit; otherwise no file changes.", "quantifier": "all messages, all manager states", "why_tests_cant": "all 2^30 addresses times all payloads and states", "anchors": ["remotefile/__init__.py: FileManager.onMsgReceived, _processFileWrite"]}
{"id": "C21", "title": "Requested file life cycle", "statement": "When a requested file is announced with the expected length it is removed from the requests, gets the announced address, becomes open, is found by that address, and exactly one open command with that address is queued for the peer.", "quantifier": "all manager states, all announcements", "why_tests_cant": "all announcements and prior states", "anchors": ["remotefile/__init__.py: FileManager._processCmd, requestRemoteFile"]}
{"id": "C22", "title": "Announcements from the peer never break the receiver", "statement": "Any announcement is either accepted or ignored. (Refuted: an announcement of a file that was not requested raises AssertionError, a length mismatch raises NameError, a short announcement raises AttributeError; the receiving thread dies.)", "quantifier": "all byte strings sent to the command address", "why_tests_cant": "all malformed and unexpected messages", "anchors": ["remotefile/__init__.py: FileManager._processCmd"]}
{"id": "C23", "title": "Compiled program length equals the data length", "statement": "For every data type the compiler accepts, the length announced in the program header equals packLen() of the signature, for pack and unpack programs alike.", "quantifier": "all data types", "why_tests_cant": "types nest to any depth", "anchors": ["apx/compiler.py: compilePackProg, compileUnpackProg", "apx/base.py: DataSignature.packLen"]}
{"id": "C24", "title": "Packing produces the documented byte layout", "statement": "For every compilable type and every value of the right shape and range, executing the pack program writes the little-endian, gap-free, declaration-order encoding of the value, exactly packLen bytes, at the given offset and leaves every other byte of the buffer unchanged.", "quantifier": "all types, all values, all buffers and offsets", "why_tests_cant": "types and values are unbounded trees", "anchors": ["apx/vm.py: exec_pack_prog", "apx/vm_state.py: VmPackState"]}
{"id": "C25", "title": "Pack then unpack is the identity", "statement": "For every compilable type without nested records and every value of the type (strings without NUL that fit), unpacking the packed bytes gives back the value.", "quantifier": "all types, all values", "why_tests_cant": "types and values are unbounded trees", "anchors": ["apx/vm.py", "apx/vm_state.py", "apx/compiler.py"]}
{"id": "C26", "title": "Values that do not fit are refused", "statement": "Packing an integer outside the range of its type code raises an error instead of writing a wrapped value, for scalars, arrays and record members.", "quantifier": "all types, all integers", "why_tests_cant": "all integers at all positions of all types", "anchors": ["apx/vm_state.py: VmPackState.pack_struct"]}
{"id": "C27", "title": "Virtual machine safety", "statement": "For arbitrary byte code (also garbage), arbitrary data and arbitrary values, execution terminates; a pack program never changes the length of the buffer and never touches bytes before the offset. (The stronger claim that it stays inside the announced window [offset, offset+program length) holds for compiled programs and is refuted for arbitrary byte code.)", "quantifier": "all byte strings as programs, all buffers, all values", "why_tests_cant": "all byte strings", "anchors": ["apx/vm.py: exec_pack_prog, exec_unpack_prog, parse_next_instruction", "apx/vm_state.py"]}
{"id": "C28", "title": "Every packable type can be unpacked", "statement": "If a record type can be packed, then it can be unpacked again. (Refuted: nested records pack but raise NotImplementedError when unpacked.)", "quantifier": "all types", "why_tests_cant": "needs all nesting shapes", "anchors": ["apx/vm_state.py: VmUnpackState.record_enter"]}
{"id": "C29", "title": "Array members of records can be written", "statement": "Every record value with array members of the declared length can be packed. (Refuted: an array longer than the number of members of the enclosing record is refused.)", "quantifier": "all record types and values", "why_tests_cant": "depends on the relation of array length to member count", "anchors": ["apx/vm_state.py: VmPackState.pack_struct"]}
{"id": "C30", "title": "Long arrays are compiled correctly", "statement": "The array length in the byte code equals the declared length for every declared length. (Refuted for lengths >= 65536 and 0; proved for 1..65535.)", "quantifier": "all array lengths", "why_tests_cant": "boundary at 65536", "anchors": ["apx/compiler.py: U8AR and siblings"]}
{"id": "C31", "title": "Port layout partitions the data file", "statement": "For every node, the byte ranges of its require ports (provide ports) are consecutive in declaration order, start at 0, do not overlap, have the packLen of their type, and cover the data file exactly.", "quantifier": "all nodes", "why_tests_cant": "all port lists", "anchors": ["apx/node_data.py: _createInPortDataFile, _createOutPortDataFile, mapInPort, mapOutPort"]}
{"id": "C32", "title": "Writing one port never disturbs another", "statement": "A successful write to a provide port stores exactly the encoding of the value in the port's range and leaves the bytes of every other port unchanged, for any sequence of writes; reading the port value back returns the last value written.", "quantifier": "all nodes, all sequences of port writes", "why_tests_cant": "unbounded histories", "anchors": ["apx/node_data.py: write_provide_port, read_provide_port, _packProvidePort"]}
{"id": "C33", "title": "Changed bytes are mapped to exactly the affected ports", "statement": "byte_to_port(offset, length) yields each require port whose range intersects the changed bytes exactly once, in layout order, and no other; ranges beyond the file raise ValueError.", "quantifier": "all nodes, all byte ranges", "why_tests_cant": "all ranges of all layouts", "anchors": ["apx/node_data.py: byte_to_port"]}
{"id": "C34", "title": "Subscribers see the values that arrived", "statement": "A complete remote write to the input file calls the listener once for each affected require port, with the decoded value of the port's current bytes.", "quantifier": "all nodes, all writes", "why_tests_cant": "all writes to all layouts", "anchors": ["apx/node_data.py: inPortDataWriteNotify, _unpackRequirePort", "apx/file.py: InputFile.write"]}
{"id": "C35", "title": "A rejected port write is harmless", "statement": "If write_provide_port raises because the value does not fit, the data file and the stored port value are unchanged and later operations work. (First half proved; second half refuted: the internal lock stays held, so every later read or write blocks forever.)", "quantifier": "all nodes, all ill-typed values, all later operations", "why_tests_cant": "needs every failure point inside the virtual machine", "anchors": ["apx/node_data.py: _packProvidePort, _unpackRequirePort"]}
{"id": "C36", "title": "Initial values", "statement": "For every port with an init value of the shape of its type, the initial bytes of the port in the data file are the encoding of the init value (integers taken modulo the field width, strings truncated or zero padded), and zero bytes without init value; the data file therefore has exactly the length of the layout.", "quantifier": "all types, all init values", "why_tests_cant": "unbounded trees", "anchors": ["apx/base.py: DataElement.createInitData, _createInitDataInner", "apx/node_data.py"]}
{"id": "C37", "title": "Data signature text round trip", "statement": "Parsing the text form of a data element gives back the same element, with nothing left over, for every element built from integer, string, record and reference types with non-negative array lengths and names without quotes.", "quantifier": "all data elements", "why_tests_cant": "elements nest to any depth and carry arbitrary integers", "anchors": ["apx/base.py: DataElement.to_string, DataSignature.parseDataSignature"]}
{"id": "C38", "title": "Type references resolve to the declared type", "statement": "In every node built with add_type and append, a reference by name or index resolves to a type that was added before, so resolution never loops; the resolved element is never itself a reference (within the supported chain length of 10).", "quantifier": "all sequences of type and port declarations", "why_tests_cant": "unbounded histories", "anchors": ["apx/node.py: add_type, append", "apx/base.py: resolve_type, resolve_data_element"]}
{"id": "C39", "title": "Port ids equal port positions", "statement": "In every node built with append, the id of every port equals its position in its port list. (Also claimed after finalize; refuted: sorting ports does not renumber them, and mirror leaves ids unset.)", "quantifier": "all sequences of operations on a node", "why_tests_cant": "unbounded histories", "anchors": ["apx/node.py: append, add_require_port, add_provide_port, finalize, mirror"]}
{"id": "C40", "title": "Definition text round trip", "statement": "Parsing the text produced for a node gives a node with the same name, types, ports and attributes, for every node built with append whose names avoid the delimiter characters. (Refuted for nodes whose types were sorted by finalize.)", "quantifier": "all nodes", "why_tests_cant": "unbounded nodes", "anchors": ["apx/node.py: lines, dumps", "apx/parser.py: loads", "apx/context.py: dumps"]}
{"id": "C41", "title": "Mirroring a node twice gives the node back", "statement": "node.mirror() turns every provide port into a require port and vice versa, keeping names, types, attributes and order; mirroring again restores the original definition text.", "quantifier": "all nodes", "why_tests_cant": "unbounded nodes", "anchors": ["apx/node.py: mirror", "apx/base.py: RequirePort.mirror, ProvidePort.mirror"]}
{"id": "C42", "title": "Merging nodes", "statement": "extend() adds every port of the other node exactly once with the types that the added ports need and no others, keeps the existing ports and types and the other node unchanged and is idempotent; a port that exists with another direction, type or attribute, or a new port whose type the node declares differently, raises an error. (Refuted: the types behind a port that both nodes have are not compared; ports of types that only name another type cannot be added.)", "quantifier": "all pairs of nodes", "why_tests_cant": "unbounded nodes", "anchors": ["apx/node.py: extend, add_port_from_node, add_data_type_from_node"]}
{"id": "C43", "title": "Comments, blank lines and line ends do not matter", "statement": "Adding blank lines, comment lines, trailing comments, trailing blanks or carriage returns to a definition text does not change the parsed node.", "quantifier": "all texts, all insertions", "why_tests_cant": "all texts and insertion points", "anchors": ["apx/parser.py: strip_comment, apx_split_line, _processLine"]}
{"id": "C44", "title": "No declaration is silently ignored", "statement": "Every non-blank line of a definition text either takes effect or raises an error. (Refuted: after a provide port line, type lines and unknown lines are dropped silently.)", "quantifier": "all texts", "why_tests_cant": "all line orders", "anchors": ["apx/parser.py: _processLine"]}
{"id": "C45", "title": "load and loads agree", "statement": "Parsing a text from a file object and from a string gives the same result. (Proved for texts with version header; refuted without header: load drops the first line.)", "quantifier": "all texts", "why_tests_cant": "all texts", "anchors": ["apx/parser.py: load, loads, _parseV12"]}
{"id": "C46", "title": "Init value text round trip", "statement": "The textual form of an init value (decimal or hexadecimal integers, quoted strings, brace lists) is parsed back to the same value.", "quantifier": "all init values", "why_tests_cant": "unbounded trees", "anchors": ["apx/base.py: PortAttribute._parseInitValue", "apx/node.py: _deriveInitValueFromAutosarConstant"]}
{"id": "C47", "title": "A ramp approaches its target monotonically", "statement": "Tester.ramp(signal, target, time, step_time) on a client with the port's value at a below the target b: the values it sets climb monotonically from a to b, stay between the two and end at b; their number is max(1, time // step_time) for whole times; the ramp completes whatever the other threads do between the steps, and after each step a read yields the value just set. Float rounding is modelled. (Proved for increasing ramps as long as the number of steps times the size of the values is at most 2^50. A ramp to the current value sets it once. Refuted for decreasing ramps, which move away from the target before jumping and may leave the port's range, which raises with the lock held; refuted for very long ramps, whose rounding errors add up past the target; refuted for ports that still have their initial value.)", "quantifier": "all start, target, slope and period values", "why_tests_cant": "all numeric parameters", "anchors": ["apx/tester.py: ramp"]}
{"id": "C48", "title": "Imported integer ranges fit their type code", "statement": "The type code chosen for an AUTOSAR integer range can represent every value of the range. (Refuted at maxVal = 256, 65536 and 2^32 and for signed ranges.)", "quantifier": "all integer ranges", "why_tests_cant": "all ranges", "anchors": ["apx/base.py: _getIntegerTypeCode, _calcUIntTypeLen, _calcIntTypeLen"]}
{"id": "C49", "title": "Writes from one thread reach the peer in order", "statement": "Messages are transmitted in the order in which they were queued, none is lost or duplicated between connection and stop, and stop transmits everything queued before it.", "quantifier": "all interleavings of producers and the worker thread", "why_tests_cant": "all schedules", "anchors": ["remotefile/__init__.py: FileManager.start, stop, worker"]}
{"id": "C50", "title": "Concurrent writers converge", "statement": "After concurrent writers to the same output file have finished, the peer's replica equals the local file. (Refuted: the read-back and the enqueueing are not atomic, so an older content can be queued last; proved for serialised writers.)", "quantifier": "all thread schedules", "why_tests_cant": "all schedules", "anchors": ["apx/file.py: OutputFile.write", "remotefile/__init__.py: outPortDataWriteNotify"]}
{"id": "C51", "title": "End to end signal delivery", "statement": "A value written to a provide port of one client arrives unchanged at a require port with the same type of another client, through packing, file write, message framing over arbitrary chunking, remote write and unpacking.", "quantifier": "all types (without nested records), all values, all chunkings", "why_tests_cant": "composition of all of the above", "anchors": ["apx/client.py", "apx/node_data.py", "apx/file.py", "remotefile/"]}
{"id": "C52", "title": "Generated code uses the same layout", "statement": "For a node with distinct port names, the init tables of the generated C file are the initial contents of the node's data files, its lengths are their lengths, its offset and length macros are the offsets and lengths of the require ports in the Python layout, and its string literals denote the definition file plus a newline. (Refuted for nodes not finalized before, which are laid out in another order; for backslashes in names; and for names that differ only in case.)", "quantifier": "all nodes", "why_tests_cant": "all nodes", "anchors": ["apx/generator.py: generate, SignalInfo", "apx/node_data.py"]}
{"id": "C53", "title": "Imported type signatures describe the AUTOSAR type", "statement": "The signature text made for an AUTOSAR type (boolean, integer range, string, nested record) parses to a data element for exactly that type: one more character than the string length, member names without the _RE ending, codes that hold the ranges.", "quantifier": "all AUTOSAR types", "why_tests_cant": "unbounded trees", "anchors": ["apx/base.py: AutosarDataType._calcDataSignature"]}
{"id": "C54", "title": "Value tables of imported enumerations", "statement": "The value table text of a text table parses back to the list of its entries, and for a table covering 0..n without gaps the entry at place v is the text of value v.", "quantifier": "all text tables", "why_tests_cant": "unbounded lists", "anchors": ["apx/base.py: AutosarDataType._calcAttribute, TypeAttribute"]}
{"id": "C55", "title": "Finalize sorts by name and keeps references", "statement": "Node.finalize stably sorts the types (and, when asked, the ports) of a node by name, keeps every name, attribute and element, lets every reference go to the type of the same name as before and numbers the types by position; Node.dumps writes a text that reads back as that sorted definition whenever no type is sorted before a type it refers to. (Refuted without that condition.)", "quantifier": "all nodes with named types and ports", "why_tests_cant": "unbounded nodes; sorting changes indices, references must follow", "anchors": ["apx/node.py: finalize, _sort_elements, _set_type_ids, dumps"]}
{"id": "C56", "title": "A client reaches the port it is told", "statement": "Client.read and Client.write reach exactly the port meant by the identifier (port object, name or number), the three kinds of identifier are interchangeable, an identifier means at most one port, and an identifier that means no port of the node leaves the client as it was and raises. (The kind of exception is exact; refuted that a port of the wrong kind is refused with the intended ValueError.)", "quantifier": "all nodes, identifiers and client histories", "why_tests_cant": "all nodes and histories; names may repeat, numbers may be negative", "anchors": ["apx/client.py: read, write, find", "apx/node.py: find"]}
{"id": "C57", "title": "A client is its abstract node plus a mailbox", "statement": "For every history of writes, reads, received messages (any bytes), connects, worker turns and listener changes, a client answers, changes its node data and calls its listener exactly as an abstract node: data messages inside the announced input file are stored and reported, every other message leaves the node alone. (Refuted that the socket thread never hangs: after one rejected write the next update blocks it for ever.)", "quantifier": "all nodes, all histories, all message bytes", "why_tests_cant": "unbounded histories of mixed events and arbitrary bytes", "anchors": ["apx/client.py", "apx/node_data.py", "apx/file.py", "remotefile/__init__.py: FileManager"]}
{"id": "C58", "title": "The language of data signatures", "statement": "DataSignature accepts a text, and reads it as a given data element, exactly if a grammar derives it: type letters with optional limits and array length, references by name or number, records with optional member names; numbers are decimal with optional sign, single underscores and blanks. The grammar is unambiguous and every other text is refused with one of five exceptions. (Refuted that the printed text tells a missing name from the name None.)", "quantifier": "all texts, all data elements", "why_tests_cant": "infinitely many texts; completeness needs an argument over the grammar", "anchors": ["apx/base.py: parseDataSignature, _parseRecordSignature, _parseExtendedTypeCode, match_pair, DataElement.to_string"]}
{"id": "C59", "title": "An imported component has the ports, types and init values of the component", "statement": "Node.import_autosar_swc of a component whose types and constants are importable succeeds and yields a node with the component's name, its provide and require ports in their order and numbered from 0, each with its init value and resolved to the node's type of its type name; one type per type name, numbered in order of first use, with the data signature and value table of the first port that uses the name; existing objects are unchanged. (Refuted for two types of the same short name from different packages: the second is taken for the first.)", "quantifier": "all components of sender-receiver ports with one element, any number of ports", "why_tests_cant": "any number of ports and types, nested records and init values", "anchors": ["apx/node.py: import_autosar_swc", "apx/node.py: add_autosar_port", "apx/node.py: _updateDataType"]}
{"id": "C60", "title": "Generated Write functions store the argument at the port", "statement": "For every provide port of a supported type the generated C Write function, run on any port data and any argument of the type, replaces exactly the bytes of that port by the little-endian image of the argument, which decodes to what the argument means; it takes the lock, touches the data only under the lock, notifies exactly the port's range once with the direct flag asked for, and leaves the argument alone. (Refuted for members that refer to named records, for which nothing is generated, and for texts that fill their port.)", "quantifier": "all nodes with supported port types, all port data, all arguments", "why_tests_cant": "all nested types and values; the generated program has loops and a running pointer", "anchors": ["apx/generator.py: genPackUnpackInteger, genPackUnpackItem, genPackUnpackFunc"]}
{"id": "C61", "title": "Generated Read functions deliver what the port contains", "statement": "For every require port of a supported type the generated C Read function, run on any port data, fills its argument from the bytes of that port, leaves the data alone, notifies nothing, and the argument then means what the virtual machine reads there, provided texts end before the last byte; it reads more than one byte only under the lock. (Refuted for texts that end with the last byte or not at all.)", "quantifier": "all nodes with supported port types, all port data, all previous contents of the argument", "why_tests_cant": "all nested types and values; the generated program has loops and a running pointer", "anchors": ["apx/generator.py: genPackUnpackInteger, genPackUnpackItem, genPackUnpackFunc"]}
{"id": "C62", "title": "Generated notifications call the right callbacks", "statement": "If the arriving range starts with a port, or before the first port with a callback, the generated inPortDataWritten function terminates and calls exactly the callbacks of the ports that the range meets, in port order, each with the value its Read function delivers. The calls pass arrays, texts and records by reference and plain numbers by value, and the union of local variables has exactly one variable, of the type of the Read function, per port with a callback. (Refuted for ranges that start inside a port, which call nobody, for names that differ only in case, and for an empty dictionary of callbacks.)", "quantifier": "all nodes with supported require ports, all callback dictionaries, ranges and port data", "why_tests_cant": "all layouts and ranges; the generated loop steps through macros and a switch", "anchors": ["apx/generator.py: CallbackInfo, _writeSourceFile"]}
{"id": "C63", "title": "Definition files are read as their lines say and saved files are read back", "statement": "Parser.parse makes of a file exactly the definition its lines say, whether they end with LF, CR LF or CR, and leaves earlier nodes alone; a node stands for one definition only; a parser used before reads every file that a new one accepts in the same way. Node.save_apx writes one file, leaves all others alone, and the file is read back as the definition sorted by name; Context.save_apx writes one such file per node, and ends with the exception of the first node that cannot be written without touching the files of later nodes; a node without a name is saved only if the file is named. (Refuted: a reused parser gives the old node for an empty file, a failing save truncates the file it replaces, two nodes of one name share a file.)", "quantifier": "all files, all disks, all nodes whose sorted types refer backwards", "why_tests_cant": "unbounded texts, mixed line ends; writing then reading must hold for all nodes", "anchors": ["apx/parser.py: parse", "apx/node.py: save_apx, write", "apx/context.py: save_apx"]}
{"id": "C64", "title": "apx_size prints the sizes of the port data", "statement": "For every file whose ports refer to types or declare reference-free elements of their own, apx_size prints the sums of the gap-free sizes of the require ports and of the provide ports and changes no file; it prints no other numbers; and they are the lengths of the input and output data that NodeData gives a node loaded from the same file. (Refuted for a port with a record of its own that refers to a type: NodeData gives it data, the tool ends with an AssertionError.)", "quantifier": "all files, any nesting of types, any world the node is loaded into", "why_tests_cant": "unbounded nesting; relates two different computations of sizes", "anchors": ["util/apx_size.py", "apx/base.py: DataSignature.packLen", "apx/node_data.py: NodeData.__init__"]}
{"id": "C65", "title": "apx_finalize and apx_normalize rewrite a definition without changing it", "statement": "If the types in the order of their names refer backwards, the output of the tools is read as the input definition sorted by name; as filters they change no file; the text depends on the sorted definition only, so two differently ordered or laid out descriptions of a node give the same text; a second run changes nothing; only the output file is ever touched. (Refuted for types whose order by name is not the order of use: the file written is not read any more; a failing tool has truncated its input; a filter without file arguments fails unless it is given an output file.)", "quantifier": "all writable definitions, all ways of input and output", "why_tests_cant": "all texts of a definition; idempotence and canonicity relate several runs", "anchors": ["util/apx_finalize.py", "util/apx_normalize.py"]}
{"id": "C66", "title": "apx_mirror exchanges provide and require ports", "statement": "Under the same condition the output of apx_mirror is read as the sorted definition with provide and require ports exchanged, under the name asked for; mirroring the mirror gives the very text that the finalizing tool writes for the original.", "quantifier": "all writable definitions, all new names", "why_tests_cant": "all definitions; composition of two runs through a file", "anchors": ["util/apx_mirror.py", "apx/node.py: Node.mirror"]}
{"id": "C67", "title": "apx_join collects the ports of all files", "statement": "If apx_join succeeds on readable files, it writes one file, which is read as a node of the given name whose provide (require) port names are those of all files in order, each at its first place, whose ports are ports of the files with types of the same names and elements, which has every port of every file and no type that no port leads to; with --sort it is sorted. (Refuted: a file without a node line is silently taken for the file before it.)", "quantifier": "all lists of files", "why_tests_cant": "any number of files with overlapping ports and types", "anchors": ["util/apx_join.py", "apx/node.py: Node.extend, add_port_from_node"]}
{"id": "C68", "title": "apx_split splits the ports of a node in two", "statement": "For a definition without double port names, if apx_split succeeds the head is read as a node with exactly the ports asked for, on each side in the order of the names, and the tail as a node with exactly the other ports, each with the types its ports lead to and no others; names come from the arguments or from a file, where blanks and comments do not count; node names come from the file names; other files stay; without names the tool only prints its help. (Refuted: --mirror does not mirror the tail, --tail_name is never used, of two ports with one name one is lost, the name of a type ends the tool.)", "quantifier": "all definitions, all lists and files of names", "why_tests_cant": "all subsets and orders of ports, all layouts of the file of names", "anchors": ["util/apx_split.py"]}
{"id": "C69", "title": "Unpack then pack is the identity", "statement": "A value unpacked from a buffer can be packed again: packed at the same place it restores exactly the bytes it was read from, packed elsewhere (another buffer, another node's port of the same type) it stores the same bytes there and unpacks to the same value. This holds for records without inner records and with array members no longer than the number of members, provided that strings are filled up with zeros. (Refuted for bytes after a zero in a string, which are lost, and for records with longer array members, which are unpacked but refused by pack.)", "quantifier": "all types without inner records, all buffers and offsets, all histories of two nodes", "why_tests_cant": "negative numbers, multi-byte characters and padding in all combinations and positions", "anchors": ["apx/vm.py: VM.exec_pack_prog, VM.exec_unpack_prog", "apx/vm_state.py: VmPackState, VmUnpackState", "apx/compiler.py: Compiler", "apx/node_data.py: NodeData.read_require_port, write_provide_port"]}
{"id": "C70", "title": "Every supported definition gives working node data and a client", "statement": "If a node has a name and ASCII text, and each of its ports has a type of numbers up to 32 bits, strings, arrays of them and records, directly or through type references (to numbers and records inside records), with an init value of the right shape, then NodeData can be built for it in every state of the file heap, its files hold the init values, and Client.create_node makes a client of its text that satisfies everything proved about clients, provided that the output data fit into 64 MB and the definition into 448 MB; otherwise it raises ValueError. Conversely NodeData is only ever built for nodes with a name and ASCII text whose ports all have such types. (Refuted: the parser accepts references by number in the record of a port, members of array type, 64 bit numbers and characters, for which no node data can be built; the first cannot even be written.)", "quantifier": "all definitions, all texts, all states of the file heap", "why_tests_cant": "existence over all nestings of records and chains of references", "anchors": ["apx/node_data.py: NodeData.__init__", "apx/client.py: Client.create_node, attach_node", "apx/compiler.py: Compiler", "apx/file_manager.py: FileManager.attachNodeData", "apx/file_map.py: FileMap.insert"]}
{"id": "C71", "title": "The exact text of a definition", "statement": "What Context.dumps, Node.dumps, Node.save_apx and the tools apx_finalize, apx_normalize, apx_mirror, apx_join and apx_split write is, character by character, the header, the name, the types, the provide ports and the require ports of the definition (sorted, for nodes and tools), with letters, limits, lengths, records, names and attributes in a fixed notation; references are numbers after finalizing, in normalized text the ports refer by name, and types without ids are always named; Context.dumps succeeds exactly if the definitions have such lines. Without a file the first two tools only print their help. (Refuted: the docstring of Node.save_apx, which says that normalized=True refers by number and False by name.)", "quantifier": "all definitions, both styles", "why_tests_cant": "all nestings, limits, numbers of digits and names", "anchors": ["apx/base.py: DataElement.to_string, Port.to_string, DataType.to_string", "apx/node.py: Node.lines, dumps, save_apx, write", "apx/context.py: Context.dumps", "util/apx_finalize.py", "util/apx_normalize.py", "util/apx_mirror.py", "util/apx_join.py", "util/apx_split.py"]}
{"id": "C72", "title": "The generated C files fit together", "statement": "The header NodeGenerator.generate writes declares exactly the functions the source defines, in the same order and with the same types, when the names of the ports on each side are distinct; no function is defined twice. A new generator given callbacks writes a callback header that declares exactly the functions called in the source, in the order of the calls, and for each call the member of the union, the parameter of the Read function and the parameter of the callback have matching types. The notification function that the Init function installs is defined in the source, provided that the node has input data and its name is not overridden. A new generator writes the source file of C60 to C62. (Refuted: with another name or without input data an undefined function is installed; one callback for two ports of different types is declared with both; of two ports with one name the function of the last is defined twice.)", "quantifier": "all nodes, names, callbacks and options", "why_tests_cant": "agreement of three generated files for all combinations of ports, types and callbacks", "anchors": ["apx/generator.py: NodeGenerator.generate, _writeHeaderFile, _writeSourceFile, _writeCallbackPrototypes, CallbackInfo"]}
{"id": "C73", "title": "Using a NodeGenerator again", "statement": "After any sequence of calls of NodeGenerator.generate without callbacks, successful or not, generating a node with input data gives exactly the files a new generator would give. The header never depends on earlier calls, and it agrees with the source for every node with input data whatever the generator was used for. (Refuted: after a node with callbacks the union of the next node has a member twice and its callback header declares the functions of the first; after a node with input data the source of a node without defines the notification function of the first, undeclared; a call that raises leaves its callbacks in the next file.)", "quantifier": "all histories of a generator object", "why_tests_cant": "histories of any length, including calls that raise", "anchors": ["apx/generator.py: NodeGenerator, CallbackInfo"]}
{"id": "C74", "title": "The generated Com layer sends and receives through the node", "statement": "For a component whose senders are for require ports and whose receivers are for provide ports, the functions ComGenerator writes, called in any order with any values of the types of the ports, leave in the output data of the node the last value sent to each port, call the Write function of a port exactly for the values that differ from the one before, leave other ports alone, and a receiver delivers what the input data say. The header declares exactly the functions the source defines, there is one static variable for each variable name with the type and initial value of the first sender that uses it, and the functions called exist in the generated node exactly if senders and receivers are on those sides. (Refuted: two senders whose port and element names make the same text share a variable and values are lost; if the variable and the port start with different values the first value may be lost; a source written before the header includes a file None.)", "quantifier": "all components, all sequences of calls, all values and input data", "why_tests_cant": "histories of calls of any length over all sets of ports; composes two generated programs", "anchors": ["apx/generator.py: ComGenerator, ComVariable", "apx/node.py: Node.import_autosar_swc, mirror"]}
{"id": "C75", "title": "The generated source is C, and its Write and Read functions do what the ports need", "statement": "If the names of the node, ports, types, record members and callbacks are identifiers and the ports of each side have distinct names, the characters of the source file written by NodeGenerator.generate, cut into words and parsed by the grammar of C, are a C file with exactly one reading; the functions it defines are exactly Init, GetNodeData, IsConnected, one Read for each require port, one Write for each provide port and, if there is input data, the notification function. The Write function of a port takes the C type of the port, by reference for records and arrays, and executed as C it stores the value at the place of the port, nothing else, takes and releases the lock and announces exactly its bytes; the Read function delivers what the bytes of its port mean and changes nothing. (Refuted: a record member called like a word of C, or a hyphen in a port name, gives a file that is not C.)", "quantifier": "all nodes, types, values and buffers", "why_tests_cant": "meaning of generated text over all definitions; the tests compare three fixed files", "anchors": ["apx/generator.py: NodeGenerator.generate, _writeSourceFile, genPackUnpackFunc, genPackUnpackItem, genPackUnpackInteger"]}
{"id": "C76", "title": "Init, constants and notification in the generated text", "statement": "Under the same conditions the Init function of the text, executed as C with the macros, tables and strings of the text, hands to apx_nodeData_create the node name, the definition that NodeData holds (and a line break) with its length, the initial input and output data that NodeData computes and the handler; the macros give the lengths of definition, input and output and, with callbacks, offset and length of each require port; GetNodeData returns the node data and IsConnected is true exactly if there is data and each direction that has data is open; and the notification function of the text, told about any range of input that starts at a port, calls exactly the callbacks of the ports in that range, in order, with the values the input data say. (Refuted: if the files are named otherwise than the node, Init installs a function that the text does not define.)", "quantifier": "all nodes, callbacks, input data and ranges", "why_tests_cant": "agreement of the Python and the C side of a node for all definitions", "anchors": ["apx/generator.py: NodeGenerator.generate, _writeSourceFile, CallbackInfo", "apx/node_data.py: NodeData.__init__"]}
{"id": "C77", "title": "The generated headers declare exactly what the source defines", "statement": "Under the same conditions on names, the header written by NodeGenerator.generate, included once by a C preprocessor, leaves exactly the prototypes of the functions of the source, in their order, parsed as C with the same types; included again it leaves nothing. With callbacks and input data, the callback header likewise leaves one prototype for each callback the notification function of the source calls, in the order of the calls, and the types of the union member, of the Read function of the source and of the prototype agree. (Refuted: two nodes whose names differ only in capital letters have the same include guard, so whoever includes both headers gets the functions of one.)", "quantifier": "all nodes, callbacks and sets of macros defined before", "why_tests_cant": "agreement of three generated files as C for all definitions", "anchors": ["apx/generator.py: NodeGenerator.generate, _writeHeaderFile, _writeCallbackPrototypes"]}
{"id": "C78", "title": "The generated text of the Com layer works with the generated text of the node", "statement": "If names are identifiers, the source file of ComGenerator is C, its header included once leaves exactly the prototypes of its functions, which are those of the upper layer, and its static variables are one for each variable name of the senders, with type and initial value of the first sender. The functions parsed from that text, executed in any order against the Write and Read functions parsed from the text of the node generated for the component, send and receive as the Com layer property says. (Refuted: a hyphen in the name of a data element gives a file that is not C.)", "quantifier": "all components, all sequences of calls, all values and input data", "why_tests_cant": "two generated C files executed together, for all components and histories", "anchors": ["apx/generator.py: ComGenerator.generateHeader, generateSource, createSendBody, createReceiveBody, ComVariable.declaration", "apx/generator.py: NodeGenerator.generate"]}
{"id": "C79", "title": "A refused value stays inside its port", "statement": "VM.exec_pack_prog writes into the caller's bytearray. Also when it raises, a compiled pack program changes no byte outside the bytes of its type at the offset and not the length of the buffer, for every value and every way a refused struct.pack_into may leave its own bytes; a buffer without room is not touched; an arbitrary byte string run as a program changes nothing before the offset. The members of a record before the refused one, and the items of a list before the refused one, have been written. (Refuted: that packing is all or nothing.)", "quantifier": "all types, values, buffers, offsets and programs", "why_tests_cant": "buffer contents after exceptions, for all programs and all points of failure", "anchors": ["apx/vm.py: VM.exec_pack_prog, parse_next_instruction", "apx/vm_state.py: VmPackState.pack_struct, pack_str", "apx/compiler.py: Compiler.compilePackProg"]}
{"id": "C80", "title": "A call on a node that raises leaves a sound node behind", "statement": "When add_type, add_require_port or add_provide_port raises, the node still stands for the same definition and prints the same lines, and nothing but the refused object has changed: some of its references are bound to the types they name, and a port carries the id it would have got. The refused object can be added later, with the meaning its declaration has then, except when it uses negative type positions (counterexample proved). A caller that goes on after refused port lines gets exactly the node that the accepted lines alone would have made, and a line is refused exactly if it declares no port of the definition so far. When extend raises, the node has been joined with exactly the ports of the other node before the refused one and perhaps with types of the other node; it is still linked and numbered and the other node is unchanged; so extend is not all or nothing (counterexample proved). When finalize raises, it raises TypeError because of a nameless type or port, the node is not final and has the same contents, perhaps reordered.", "quantifier": "all worlds, nodes that stand for a linked definition, declarations, lists of lines, pairs of nodes and flags", "why_tests_cant": "A test of an exception looks at the exception; the state left behind depends on where inside a nested declaration or a merge the failure comes, and there are unboundedly many such places.", "anchors": ["apx/node.py: Node.append, add_type, add_require_port, add_provide_port, extend, add_port_from_node, add_data_type_from_node, resolve_types, finalize", "apx/base.py: DataElement.resolve_type, DataSignature.resolve_data_element"]}
{"id": "C81", "title": "Compatible nodes can be merged", "statement": "If two nodes declare the types and ports they have in common in the same way, each name of a port of the second node stands for one port, the types that are to be taken over are no mere references and refer to others only through direct members of records, and none of them has the name of a port, then Node.extend succeeds; a recursion limit of the number of types is enough, the result is the merge of the definitions, and the second node is still compatible with it. Whenever extend succeeds, the ports taken over follow those that were there in the order of the second node, each name once. An empty node can thus take over a definition with distinct names, and gets all its ports in order. (Refuted without these conditions: a require port with the name of the type of a provide port, or a reference inside a nested record, makes the merge into an empty node fail.)", "quantifier": "all pairs of definitions, recursion limits and earlier objects", "why_tests_cant": "success of a recursive copy over all type graphs; the tests merge two fixed nodes", "anchors": ["apx/node.py: Node.extend, add_port_from_node, add_data_type_from_node, add_type, find, _check_duplicate_port"]}
{"id": "C82", "title": "A generator that has worked may be used again", "statement": "A NodeGenerator object whose earlier calls of generate all succeeded, those with callbacks for nodes with input data, succeeds for a node with input data exactly if a new object does, and writes the same header and, without callbacks, the same files. With callbacks, the source differs from that of a new object only by more members in the union of the notification function, those of the last file with callbacks, so no define, case or call of an earlier node is in it; and the header of the callbacks declares the earlier callbacks first. (That the files differ at all, and what happens after calls that raised, is refuted under the property about the generated files.)", "quantifier": "all histories of an object, all nodes and callbacks", "why_tests_cant": "unbounded histories of one object; the tests use a new object each time", "anchors": ["apx/generator.py: NodeGenerator.generate, _writeSourceFile, _writeCallbackPrototypes, CallbackInfo.create, CallbackInfo.finalize"]}
{"id": "C83", "title": "The old definition writer writes lines that mean the type", "statement": "With the names math and typeData of its module defined, the line that apx_writer.ApxType writes for a boolean, an integer range, an array of integers, a text or a record of these, with clean member names, is one line that the parser splits into T, the name, the signature and the value table, and from which DataType makes an element for values of that type. The integer ranges that get a code that holds them are determined exactly: those from 0 or below 0 up to stated limits; a range with a positive minimum always raises TypeError, 0..256 gets C and -1000..10 gets c(-1000,10) (refutations proved). A record that begins with itself raises RecursionError. A reference to a type that is not there is never written. The attribute text of ApxPort.getAttrStr is read back by PortAttribute with the same init value, queue length and parameter mark, unless the port is both queued and a parameter: then the mark is always lost (refutation proved). The module as it stands does not define the two names: it writes booleans, texts and empty records and nothing else (refutation proved).", "quantifier": "all type dictionaries and type references, all integer ranges, all value tables, all port attributes and recursion limits", "why_tests_cant": "The module has no tests at all and is imported by nothing; the ranges and nested types are unbounded.", "anchors": ["apx/apx_writer.py: ApxSignature.__str__, ApxType._calcUIntTypeLen, _calcIntTypeLen, _getIntegerTypeCode, _calcDataSignature, _calcAttribute, ApxType.__init__, ApxPort.getAttrStr", "apx/parser.py: apx_split_line", "apx/base.py: DataType, PortAttribute, TypeAttribute"]}
{"id": "C84", "title": "Merging gives the same ports in any order and grouping", "statement": "If several nodes are merged with Node.extend, whichever of them is extended and in whichever order the others follow, the results have the same ports whenever all calls succeed: every port of one result is, in the same direction, a port of the other with the same name, attributes and signature, with references to types of the same name. Grouping, a.extend(b) then c against b.extend(c) and then a by the result, does not matter either. If types that two of the nodes share are declared in the same way, types of the same name are the same in both results and each port has the same elements when all references are followed; if the extended nodes have no port twice, the lists of port names are permutations of each other. Without the condition on types both orders can succeed and give the same port different data, because the types below the type of a port are not compared (refutation proved), and one order can succeed where the other raises ValueError (refutation proved).", "quantifier": "all lists of nodes and definitions, all permutations, all recursion limits", "why_tests_cant": "The tests merge two nodes in one order; the number of nodes and the depth of the types are unbounded, and a difference below the top type is not visible in the port lines.", "anchors": ["apx/node.py: Node.extend, add_port_from_node, add_data_type_from_node, _check_duplicate_port, _verify_data_types_are_equal"]}
{"id": "C85", "title": "Mirroring and merging commute", "statement": "The mirror of a.extend(b) and the merge of the mirror of a with the mirror of b have the same ports whenever both merges succeed: same names, directions, attributes and signatures. For compatible definitions both succeed, the two results have the same name, types of the same name are the same and every port has the same data when all references are followed. Without compatibility one can succeed and the other raise ValueError, because require ports are taken over first and a port that was taken over hides a type of its name (refutation proved).", "quantifier": "all nodes and definitions, all new names, all recursion limits", "why_tests_cant": "The tests mirror and merge single small nodes and never combine the two; nodes and type nesting are unbounded.", "anchors": ["apx/node.py: Node.mirror, Node.extend, add_port_from_node, add_data_type_from_node", "apx/base.py: ProvidePort.mirror, RequirePort.mirror"]}
{"id": "C86", "title": "Splitting a definition and joining the parts gives it back", "statement": "If apx_split writes a definition with distinct port names, whose types refer to types with smaller names, into a head and a tail file without mirroring, and apx_join joins the two files, then the file that is written is read back as a definition with the ports of the original: the same names in the same directions, each once, with the same attributes and, all references followed, the same elements; types of the same name are declared in the same way. If a type refers to one with a later name, the parts can be files that apx_join does not read (refutation proved).", "quantifier": "all definitions, all lists of names on the command line or in a file, all file names, with and without sorting and normalizing", "why_tests_cant": "The tools have no tests; the number of ports, types and names is unbounded.", "anchors": ["util/apx_split.py", "util/apx_join.py", "apx/node.py: Node.extend, add_port_from_node, finalize, save_apx", "apx/parser.py: Parser.parse"]}
{"id": "C87", "title": "The sorted result of apx_join does not depend on the order of the files", "statement": "If apx_join --sort succeeds on readable files whose types refer to types with smaller names and agree wherever they have the same name, it writes the same bytes, and leaves all other files as they are, whenever the same set of files is given, in whatever order and however often each file is named. Without --sort, or if types of the same name differ below the surface, the order matters (refutations proved).", "quantifier": "all lists of files, all orders and repetitions", "why_tests_cant": "The tool has no tests; all permutations of unboundedly many files, and equality of whole texts through merging, pruning of types, sorting and renumbering of references.", "anchors": ["util/apx_join.py", "apx/node.py: Node.extend, add_port_from_node, add_data_type_from_node, finalize, save_apx"]}
{"id": "C88", "title": "Which files apx_join can join", "statement": "apx_join succeeds on every list of definition files that agree: no two declare a type or a port of the same name differently, every type that a port needs can be taken over, and no type has the name of a port, provided that a type refers only to types whose names come before its own, because the tool sorts the types. The result is then read as the joined definition and no other file changes. Such files can be joined in every order and any number of times each, and with --sort the written bytes are always the same. Agreement with two definitions carries over to the two merged, so it is enough to check the files in pairs. Without agreement this is false: files that declare a port in both directions, with another type or another init value, or a type differently, are refused and nothing is written, and when a type has the name of a port of another file one order is refused while the other one succeeds.", "quantifier": "all lists of readable definition files, all names, with and without --sort and --normalize; all orders and repetitions of the list", "why_tests_cant": "The tests join no files; a test would try a few lists in a few orders, while the claim is about every set of agreeing files and every order", "anchors": ["util/apx_join.py", "apx/node.py: Node.extend, add_port_from_node, add_data_type_from_node, _check_duplicate_port, finalize, save_apx"]}
{"id": "C89", "title": "Which definitions apx_split can split, and that joining gives the same file", "statement": "apx_split succeeds on every definition file whose port names differ, whose types can be taken over by another node and have no name of a port, and whose types refer only to types with names before their own, for every list of names asked for that has no name of a type. The files it writes are read as the ports asked for and the others, and no other file changes. apx_join of the two files then succeeds in both orders and gives the same ports and data; with --sort both orders give the same bytes. If the ports need all the types of the definition, the joined and sorted file is byte for byte the file that apx_finalize (or, with --normalize, apx_normalize) makes of the original. Outside these conditions it is false: a type that no port needs is lost, and apx_split fails on the name of a type and on ports whose type is but a reference or has a reference deep in a record.", "quantifier": "all readable definition files that meet the conditions, all lists of names (given directly or in a file), all file names", "why_tests_cant": "The tests run none of the tools; the claim compares four programs on every definition and every choice of ports", "anchors": ["util/apx_split.py", "util/apx_join.py", "util/apx_finalize.py", "util/apx_normalize.py", "apx/node.py: Node.extend, add_port_from_node, add_data_type_from_node, finalize, save_apx"]}
{"id": "C90", "title": "What a definition text says is accepted, and nothing else", "statement": "A definition text or file whose lines can be read one after the other (a node line, then types, then ports; every signature and attribute readable; every reference to a type declared before that leads within ten steps to an element that is no reference) is accepted, whatever was read before, and the node is what the lines say. Provided that every type is declared once, a text or file is accepted if and only if its lines can be read in this way, and the lines say only one definition. A type may be declared again in the same way if its references are by name; with a reference by number even the very same line is refused (refutation proved).", "quantifier": "all texts and all files, all line ends, comments and blanks, all worlds of earlier objects", "why_tests_cant": "The tests parse a handful of good texts; they say nothing about which texts are accepted in general, nor that acceptance does not depend on what was read before", "anchors": ["apx/parser.py: Parser.loads, load, parse, _processLine, apx_split_line", "apx/node.py: Node.add_type, add_require_port, add_provide_port, resolve_types"]}
{"id": "C91", "title": "The mirror of joined files is the join of the mirrored files", "statement": "Take definition files that can be joined (what any two both declare they declare in the same way, types can be taken over, types refer to types with names before their own), and for each the file that apx_mirror writes for it, under any name and normalized or not. Then apx_join --sort of the files, apx_mirror of the joined file, and apx_join --sort of the mirrored files under the same name all succeed, and the last two write the same bytes. Without --sort it is false (refutation proved).", "quantifier": "all lists of definition files that can be joined, all file names, all choices of --normalize, all disks", "why_tests_cant": "The tests run none of the tools; the claim compares two chains of three programs on every set of files", "anchors": ["util/apx_join.py", "util/apx_mirror.py", "apx/node.py: Node.mirror, Node.extend, Node.finalize, Node.save_apx", "apx/parser.py: Parser.parse"]}
{"id": "C92", "title": "Programs with arrays of records pack and unpack what they describe", "statement": "The machine runs more than the compiler makes: programs that enter an array, have the code of a record (or of a further array) for each item, and leave it, as a whole program or as a member of a record, nested to any depth. Such a pack program writes the bytes of the value one part after the other at the offset and changes nothing else; such an unpack program gives the value back from its bytes, wherever they are in the data; so what is packed is unpacked. To pack, a plain array member must not be longer than its record has entries. Outside these shapes it is false: a record directly in a record is packed but refused by unpacking (NotImplementedError), and plain items of an entered array are not selected (struct.error).", "quantifier": "all nestings of records and arrays of records, all plain member types, all values, all data and offsets", "why_tests_cant": "The tests enter one array of records with fixed values; they cannot show that the stack is restored for every nesting", "anchors": ["apx/vm_state.py: VmPackState.array_enter, array_leave, record_enter, record_select, record_leave; VmUnpackState.array_enter, array_leave, record_enter, record_leave", "apx/vm.py: VM.exec_pack_prog, exec_unpack_prog, parse_array_enter, parse_array_leave"]}
{"id": "C93", "title": "The machine packs from a value exactly what the program asks for", "statement": "A pack program for records and arrays of records takes the members of each dict by name and the first items of each list: further members, the order of the members and further items are ignored without an error, at any depth, the bytes written are those of the value cut down to the shape, and unpacking gives that cut down value. A dict that lacks a member raises KeyError and a list that has too few items raises IndexError, when all parts before it are in order.", "quantifier": "all nestings of records and arrays of records, all values with anything more in them, all data and offsets", "why_tests_cant": "The tests pack values that match the program; that surplus is dropped silently at every depth and lack is always noticed needs all values", "anchors": ["apx/vm_state.py: VmPackState.array_enter, record_enter, record_select, pack_struct, pack_str", "apx/vm.py: VM.exec_pack_prog"]}
{"id": "C94", "title": "Short type names", "statement": "Node.finalize(compact=True) sorts like finalize without it, numbers the types by position and gives the type at position i the short name Ti; the text that Node.dumps() then writes is read as the sorted definition in which the types are called T0, T1, ... and every port and type refers to the same types as before, whenever no type is sorted before a type it refers to. (Refuted for the normalized text: it refers to types by the long names, which it no longer declares, and is refused with ApxTypeError.)", "quantifier": "all node definitions with named types and ports, with and without sorting of ports", "why_tests_cant": "The tests finalize one node with compact=True and never read its text back", "anchors": ["apx/node.py: Node.finalize, compact_types, _set_type_ids, dumps", "apx/base.py: DataType.to_string, DataElement.to_string", "apx/parser.py: Parser.loads"]}
