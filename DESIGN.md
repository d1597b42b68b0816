# Formal model of py-apx: design and trusted base

The subject is the Python code in `/repo` (py-apx): the APX definition language,
the byte code compiler and virtual machine for port data, port data files, the
RemoteFile protocol, the client, the tester and the C code generator.

The code is read as text and transcribed into total Gallina functions, one per
Python function, with Python exceptions as values.  Nothing in `/repo` is built,
run or changed.

94 properties are stated in `properties.jsonl` and claimed by 384 theorems in
`MANIFEST.json`.

## Conventions

* `rocq/theories/*Model.v` and `Py.v`: transcriptions only, no proofs.  Each
  definition cites the file and lines it transcribes and names simplifications.
* `*Spec.v`: small specifications used in statements, written without the helpers
  of the model.
* `*Proofs.v`: lemmas.
* `*Props.v`: the property theorems, each followed by `Print Assumptions` and
  accompanied by an `Example` that meets its hypotheses.
* A claim that is false of the code is stated as `..._refuted` with a concrete
  witness, next to a theorem that says when it does hold.  Such a property has the
  status "proved": the theorems listed prove what its statement says, including
  where it fails.
* Bytes are `list Z` with values 0..255; text is `list Z` of code points.
* `res A := Ok a | Err e`: `Err` carries the Python exception class.
* Objects shared by reference (ports, data types, files) live in heaps
  `nat -> object`.  Recursion depth is a `fuel` argument; running out of it is
  `RecursionError`.

## Plan per property

| id | property | plan: what is modelled, how it is proved | theorems |
|----|----------|------|------|
| C01 | 32-bit length prefix round trip | numheader `_encode`/`_decode` in both modes with offset and end; shifts and masks turned into div/mod, case analysis on the two lengths | NumHeaderProps: `numheader32_roundtrip`, `numheader32_rejects`, `numheader32_prefix_free`, `numheader32_accepts_only_in_range`, `numheader32_canonical_refuted` |
| C02 | 16-bit length prefix is a bijection | numheader `_encode`/`_decode` in both modes with offset and end; shifts and masks turned into div/mod, case analysis on the two lengths | NumHeaderProps: `numheader16_roundtrip`, `numheader16_rejects`, `numheader16_canonical` |
| C03 | A truncated length prefix is never mistaken for a value | numheader `_encode`/`_decode` in both modes with offset and end; shifts and masks turned into div/mod, case analysis on the two lengths | NumHeaderProps: `numheader_truncated`, `numheader_decode_safe` |
| C04 | RemoteFile message header round trip | `packHeader`/`unpackHeader`; same arithmetic, witness addresses for the two claims that fail | RmfProps: `rmf_header_roundtrip`, `rmf_header_rejects`, `rmf_header_accepts_only_in_range`, `rmf_header_none_is_short`, `rmf_header_refuses_negative_refuted` |
| C05 | A RemoteFile header alone is parsed back | `packHeader`/`unpackHeader`; same arithmetic, witness addresses for the two claims that fail | RmfProps: `rmf_header_bare`, `rmf_header_roundtrip_unconditional_refuted` |
| C06 | File announcement round trip | `packFileInfo`/`unpackFileInfo`, open and close commands over a model of `struct`, ASCII encoding and UTF-8 decoding; byte-level round trips, witnesses for the close command | RmfProps: `fileinfo_roundtrip`, `fileinfo_name_ends_at_nul`, `fileinfo_packs_only_what_fits`, `fileinfo_short_is_none` |
| C07 | File open and close commands round trip | `packFileInfo`/`unpackFileInfo`, open and close commands over a model of `struct`, ASCII encoding and UTF-8 decoding; byte-level round trips, witnesses for the close command | RmfProps: `fileopen_roundtrip`, `fileopen_rejects`, `fileopen_accepts_only_open`, `fileclose_roundtrip_refuted`, `fileclose_wire` |
| C08 | Message reassembly does not depend on TCP chunking | worker loop over chunks, `_parseData`, `_parseMessage`, `send`, with an arbitrary handler that may raise; feeding chunks = feeding the concatenation, induction on messages | SocketProps: `socket_chunking_independent`, `socket_arbitrary_bytes_safe` |
| C09 | Every sent message arrives once, whole and in order | worker loop over chunks, `_parseData`, `_parseMessage`, `send`, with an arbitrary handler that may raise; feeding chunks = feeding the concatenation, induction on messages | SocketProps: `socket_delivers_in_order`, `socket_delivers_everything`, `socket_requires_acknowledge`, `socket_send_length`, `socket_close_stops`, `socket_greeting` |
| C10 | File address allocation is disjoint, ordered, aligned and in range | `FileMap` with bisect as a real binary search over files with identities; invariant preserved by every operation, exact outcome of each call, witnesses | FileMapProps: `filemap_allocation`, `filemap_insert_auto`, `filemap_insert_fixed`, `filemap_insert_foreign`, `filemap_empty_file_disjoint_refuted`, `filemap_reinsert_disjoint_refuted` |
| C11 | File insertion succeeds whenever there is room | `FileMap` with bisect as a real binary search over files with identities; invariant preserved by every operation, exact outcome of each call, witnesses | FileMapProps: `filemap_insert_outcome`, `filemap_insert_when_room_refuted` |
| C12 | Address lookup is exact | `FileMap` with bisect as a real binary search over files with identities; invariant preserved by every operation, exact outcome of each call, witnesses | FileMapProps: `filemap_find_exact`, `filemap_find_empty_files_refuted` |
| C13 | Name lookup finds any file in the map | `FileMap` with bisect as a real binary search over files with identities; invariant preserved by every operation, exact outcome of each call, witnesses | FileMapProps: `filemap_find_name_first`, `filemap_find_name_refuted` |
| C14 | File removal removes exactly that file | `FileMap` with bisect as a real binary search over files with identities; invariant preserved by every operation, exact outcome of each call, witnesses | FileMapProps: `filemap_remove`, `filemap_remove_missing`, `filemap_insert_given`, `filemap_remove_given` |
| C15 | A file behaves like a fixed-size memory | `File.read/write`, `InputFile.write`, `OutputFile.write` with Python slices; refinement of a byte memory, induction on operation lists | FileProps: `file_is_memory`, `file_initial`, `file_initial_rejects`, `file_read_length_refuted` |
| C16 | Input file notification | `File.read/write`, `InputFile.write`, `OutputFile.write` with Python slices; refinement of a byte memory, induction on operation lists | FileProps: `input_write_notifies`, `input_local_write_notifies`, `input_fragments_report_last`, `input_fragments_reported_refuted` |
| C17 | Output file notification | `File.read/write`, `InputFile.write`, `OutputFile.write` with Python slices; refinement of a byte memory, induction on operation lists | FileProps: `output_write_notifies`, `plain_file_silent` |
| C18 | Connection start-up order | `FileManager` as a state machine (queue, worker, local/remote map, requests); invariants over event lists, refinement to a replica, complete outcome table for messages | ManagerProps: `nothing_before_connect`, `startup_announcements`, `local_files_stay_placed` |
| C19 | Remote replica converges | `FileManager` as a state machine (queue, worker, local/remote map, requests); invariants over event lists, refinement to a replica, complete outcome table for messages | ManagerProps: `replica_converges`, `replica_converges_wire` |
| C20 | Remote writes touch only the addressed open file | `FileManager` as a state machine (queue, worker, local/remote map, requests); invariants over event lists, refinement to a replica, complete outcome table for messages | ManagerProps: `data_message_frame`, `data_message_hits`, `data_message_misses`, `remote_layout_enforced_refuted` |
| C21 | Requested file life cycle | `FileManager` as a state machine (queue, worker, local/remote map, requests); invariants over event lists, refinement to a replica, complete outcome table for messages | ManagerProps: `requested_file_lifecycle` |
| C22 | Announcements from the peer never break the receiver | `FileManager` as a state machine (queue, worker, local/remote map, requests); invariants over event lists, refinement to a replica, complete outcome table for messages | ManagerProps: `announcement_outcomes`, `announcements_never_raise_refuted`, `other_commands_ignored`, `open_request` |
| C23 | Compiled program length equals the data length | type trees, `packLen`, the compiler to bytes; induction on types against the size and encoding specification of TypesSpec | CompilerProps: `compiled_length_is_packLen`, `compiled_has_packLen`, `packLen_is_size`, `compiler_accepts_exactly`, `port_program_direction`, `ports_compile_exactly`, `sized_types_compile_refuted` |
| C24 | Packing produces the documented byte layout | compiled byte code run by the pack and unpack machines; induction on types against the encoding specification, exact conditions for success | VmProps: `pack_exact`, `pack_changes_only_window`, `pack_small_buffer_refused`, `string_encoding` |
| C25 | Pack then unpack is the identity | compiled byte code run by the pack and unpack machines; induction on types against the encoding specification, exact conditions for success | VmProps: `unpack_exact`, `pack_unpack_identity`, `unpack_repeated_members` |
| C26 | Values that do not fit are refused | compiled byte code run by the pack and unpack machines; induction on types against the encoding specification, exact conditions for success | VmProps: `out_of_range_refused` |
| C27 | Virtual machine safety | the machines run on arbitrary bytes; invariant over execution steps | VmProps: `vm_pack_safe`, `vm_unpack_safe`, `vm_window_refuted`, `vm_header_required` |
| C28 | Every packable type can be unpacked | compiled byte code run by the pack and unpack machines; induction on types against the encoding specification, exact conditions for success | VmProps: `nested_never_unpacks`, `flat_unpacks`, `packable_unpackable_refuted` |
| C29 | Array members of records can be written | compiled byte code run by the pack and unpack machines; induction on types against the encoding specification, exact conditions for success | VmProps: `long_array_member_refused`; ReadyProps: `array_member_refuted` |
| C30 | Long arrays are compiled correctly | type trees, `packLen`, the compiler to bytes; induction on types against the size and encoding specification of TypesSpec | CompilerProps: `array_length_in_code`, `array_length_faithful`, `array_length_refuted`; VmProps: `array_length_zero_refuted`, `long_array_never_unpacks`, `array_roundtrip` |
| C31 | Port layout partitions the data file | `NodeData` construction, port maps, lock, reads and writes, notifications, init data; induction on port lists, refinement of an abstract node over operation lists | NodeDataProps: `port_layout`, `port_files`, `layout_exact_cover` |
| C32 | Writing one port never disturbs another | `NodeData` construction, port maps, lock, reads and writes, notifications, init data; induction on port lists, refinement of an abstract node over operation lists | NodeDataProps: `node_data_refines`, `last_write_wins`, `write_stores` |
| C33 | Changed bytes are mapped to exactly the affected ports | `NodeData` construction, port maps, lock, reads and writes, notifications, init data; induction on port lists, refinement of an abstract node over operation lists | NodeDataProps: `affected_meaning`, `byte_to_port_exact` |
| C34 | Subscribers see the values that arrived | `NodeData` construction, port maps, lock, reads and writes, notifications, init data; induction on port lists, refinement of an abstract node over operation lists | NodeDataProps: `arrival_announced`, `read_gives_present_value` |
| C35 | A rejected port write is harmless | `NodeData` construction, port maps, lock, reads and writes, notifications, init data; induction on port lists, refinement of an abstract node over operation lists | NodeDataProps: `rejected_write_changes_nothing`, `rejected_write_locks`, `locked_for_ever`, `rejected_write_harmless_refuted` |
| C36 | Initial values | `NodeData` construction, port maps, lock, reads and writes, notifications, init data; induction on port lists, refinement of an abstract node over operation lists | NodeDataProps: `initial_contents`, `init_is_encoding`, `initial_value_read`, `initial_values_refuted` |
| C37 | Data signature text round trip | printer and parser of data signatures; induction on elements with lemmas on what each parser consumes | SigProps: `signature_text_round_trip`, `linked_signature_round_trip`, `parsed_signature_normal_form`, `signature_parser_terminates`, `signature_round_trip_refuted` |
| C38 | Type references resolve to the declared type | lines, `_processLine`, `load`, `loads`, `dumps`; a relation that says what each line does, invariants over line lists, round trip by induction | ParserProps: `loaded_references_resolve`, `loaded_node_is_what_is_said`, `append_adds_port` |
| C39 | Port ids equal port positions | lines, `_processLine`, `load`, `loads`, `dumps`; a relation that says what each line does, invariants over line lists, round trip by induction | ParserProps: `loaded_port_ids`, `append_adds_port`, `ids_after_finalize_refuted`, `ids_after_mirror_refuted` |
| C40 | Definition text round trip | lines, `_processLine`, `load`, `loads`, `dumps`; a relation that says what each line does, invariants over line lists, round trip by induction | ParserProps: `definition_round_trip`, `reading_again_gives_the_same`, `sorted_round_trip_refuted`, `index_in_own_record_refuted` |
| C41 | Mirroring a node twice gives the node back | nodes with shared type objects, mirror, extend, finalize; simulation between heaps, invariants over declaration lists | NodeProps: `mirror_swaps`, `mirror_twice` |
| C42 | Merging nodes | nodes with shared type objects, mirror, extend, finalize; simulation between heaps, invariants over declaration lists | NodeProps: `extend_merges`, `extend_port_conflict`, `extend_type_conflict`, `extend_type_conflict_refuted`, `extend_reference_type_refuted`, `loaded_settled`; ToolsProps: `extend_keeps_order` |
| C43 | Comments, blank lines and line ends do not matter | lines, `_processLine`, `load`, `loads`, `dumps`; a relation that says what each line does, invariants over line lists, round trip by induction | ParserProps: `layout_does_not_matter`, `comment_before_header_refuted` |
| C44 | No declaration is silently ignored | lines, `_processLine`, `load`, `loads`, `dumps`; a relation that says what each line does, invariants over line lists, round trip by induction | ParserProps: `every_port_line_counts`, `loaded_node_is_what_is_said`, `no_line_dropped_refuted` |
| C45 | load and loads agree | lines, `_processLine`, `load`, `loads`, `dumps`; a relation that says what each line does, invariants over line lists, round trip by induction | ParserProps: `load_agrees_with_loads`, `load_accepts_what_loads_accepts`, `headerless_load_refuted` |
| C46 | Init value text round trip | attribute text parser and the printer of imported constants; induction on init values | AttrProps: `init_notation_read`, `port_attribute_read`, `init_text_round_trip`, `init_text_round_trip_refuted`, `attribute_text_dropped_refuted`, `attribute_parser_terminates`, `type_attribute_parser_terminates`; AutosarProps: `imported_constant_read` |
| C47 | A ramp approaches its target monotonically | ramp over double precision numbers (rounding to nearest even with underflow); rounding error bounds and induction on steps | TesterProps: `rounding_to_nearest`, `ramp_climbs`, `falling_ramp_moves_away`, `ramp_to_itself`, `long_ramp_stays_between_refuted`, `falling_ramp_reaches_target_refuted`, `ramp_of_initial_value_refuted` |
| C48 | Imported integer ranges fit their type code | `_getIntegerTypeCode` with an exact base-2 logarithm; arithmetic and witnesses | AutosarProps: `unsigned_range_fits`, `signed_range_fits`, `signed_small_refused`, `integer_ranges_fit_refuted` |
| C49 | Writes from one thread reach the peer in order | `FileManager` as a state machine (queue, worker, local/remote map, requests); invariants over event lists, refinement to a replica, complete outcome table for messages | ManagerProps: `worker_in_order`, `worker_progress`, `worker_drains`, `transmitted_format` |
| C50 | Concurrent writers converge | interleavings of writers with three atomic actions per write; invariant under every schedule, witness schedule | ConcProps: `concurrent_writers_converge_refuted`, `disjoint_writers_converge`, `single_writer_converges` |
| C51 | End to end signal delivery | client and manager behind a socket, composed with the node data of two clients; history invariant over arbitrary events, composition of the earlier theorems | ClientProps: `written_value_reaches_peer`, `arriving_value_is_reported`, `received_value_is_read`; NetProps: `net_is_history`, `written_value_is_received` |
| C52 | Generated code uses the same layout | offsets, init tables, definition literal and macros of the generator; induction on ports, agreement with NodeData | GenProps: `generated_data`, `generated_macros`, `unsorted_layout_refuted`, `backslash_refuted`, `case_of_names_refuted` |
| C53 | Imported type signatures describe the AUTOSAR type | signature and value table texts made from AUTOSAR types; induction on types, read back by the parsers of C37 and C46 | AutosarProps: `imported_type_read`, `imported_type_refuted` |
| C54 | Value tables of imported enumerations | signature and value table texts made from AUTOSAR types; induction on types, read back by the parsers of C37 and C46 | AutosarProps: `value_table_round_trip`, `value_table_entry`, `value_table_refuted` |
| C55 | Finalize sorts by name and keeps references | nodes with shared type objects, mirror, extend, finalize; simulation between heaps, invariants over declaration lists | NodeProps: `finalize_sorts`, `dumps_round_trip`; ParserProps: `sorted_round_trip_refuted` |
| C56 | A client reaches the port it is told | `Client` with identifiers of all kinds; case analysis on the identifier, refinement of an abstract node with a mailbox | ClientProps: `same_port_same_operation`, `identifier_is_unambiguous`, `wrong_write_is_rejected`, `wrong_read_is_rejected`, `wrong_kind_is_value_error_refuted` |
| C57 | A client is its abstract node plus a mailbox | `Client` with identifiers of all kinds; case analysis on the identifier, refinement of an abstract node with a mailbox | ClientProps: `client_refines`, `clients_never_hang_refuted` |
| C58 | The language of data signatures | declarative grammar of signatures (derivations) against the parser; soundness and completeness by induction | GrammarProps: `int_reads_numerals`, `signature_language`, `signature_unambiguous`, `signature_refusals`, `missing_names_print_as_None`, `text_determines_names_refuted` |
| C59 | An imported component has the ports, types and init values of the component | `import_autosar_swc` with its type and port list; induction on the component's ports | ImportProps: `component_imported`, `types_of_one_name_refuted` |
| C60 | Generated Write functions store the argument at the port | statements of generated functions executed in a small C semantics (memory bytes, typed cells); induction on types, agreement with pack/unpack of the virtual machine | GenProps: `write_function`, `named_record_members_refuted`, `full_texts_refuted` |
| C61 | Generated Read functions deliver what the port contains | statements of generated functions executed in a small C semantics (memory bytes, typed cells); induction on types, agreement with pack/unpack of the virtual machine | GenProps: `read_function`, `full_texts_refuted` |
| C62 | Generated notifications call the right callbacks | the generated switch executed as a loop; induction on ports from the written range | GenProps: `callbacks_called_right`, `partial_data_refuted`, `case_of_names_refuted`, `no_callbacks_refuted`, `callback_arguments` |
| C63 | Definition files are read as their lines say and saved files are read back | files as texts with three line ends, a disk as a map; induction on lines, then the round trip of C40 on the text that was written; uniqueness of the represented definition | FilesProps: `parsed_file_says`, `one_definition`, `parser_reused`, `parser_reused_refuted`, `saved_file_is_read`, `save_touches_one_file`, `failed_save_keeps_file_refuted`, `context_saved`, `context_saved_refuted`, `context_save_stops`, `nameless_not_saved` |
| C64 | apx_size prints the sizes of the port data | byte counts of definitions as an inductive relation; the stack loop of packLen summed up by induction on its turns; unresolved references excluded because packLen refuses them | ToolsProps: `size_printed`, `size_only`, `size_is_data_length`, `size_refuted` |
| C65 | apx_finalize and apx_normalize rewrite a definition without changing it | sort, write and read composed from C40, C41 and C63; canonical text from uniqueness of the represented definition | ToolsProps: `rewritten_is_read`, `filtered_is_read`, `rewritten_alike`, `rewritten_again`, `rewrite_touches_output`, `rewritten_is_read_refuted`, `failed_rewrite_refuted`, `filter_needs_output_refuted` |
| C66 | apx_mirror exchanges provide and require ports | sort, write and read composed from C40, C41 and C63; canonical text from uniqueness of the represented definition | ToolsProps: `mirrored_is_read`, `mirror_of_mirror` |
| C67 | apx_join collects the ports of all files | chain of merges (C42) with the order of port names as invariant | ToolsProps: `extend_keeps_order`, `joined_is_read`, `join_blank_file_refuted` |
| C68 | apx_split splits the ports of a node in two | invariant over the list of names (ports taken so far, names processed), then complement | ToolsProps: `split_is_read`, `names_in_file`, `tail_mirrored_refuted`, `tail_name_unused`, `split_double_name_refuted`, `split_type_name_refuted`; PrintProps: `split_help` |
| C69 | Unpack then pack is the identity | left inverse from the right one of C25: little endian and UTF-8 decoding are injective on their images, types by structural induction; ports by composition with C32 and C34 | VmBackProps: `forward_copies`, `unpack_pack_identity`, `numbers_copied`, `gateway`, `untidy_refuted`, `long_member_refuted` |
| C70 | Every supported definition gives working node data and a client | inductive types of definitions; progress of every step (dump, compile, init data, address assignment) by induction on elements and ports, converse by inversion | ReadyProps: `supported_builds`, `built_is_supported`, `supported_text_gives_client`, `number_in_own_record_refuted`, `array_member_refuted` |
| C71 | The exact text of a definition | inductive relation between definitions and lines, equivalent to the printer by induction on elements; decimal numerals by induction on digits | PrintProps: `dumped_lines`, `saved_text`, `tools_text`, `tools_help`, `mirror_text`, `joined_text`, `split_text`, `normalized_docstring_refuted` |
| C72 | The generated C files fit together | decompose the source into pieces that define known functions, the header likewise; inversion of the whole call; distinct names by first and last characters | GenFilesProps: `fresh_generator`, `header_declares`, `no_function_twice`, `callbacks_declared`, `handler_defined`, `handler_name_refuted`, `one_callback_refuted`, `same_names_refuted` |
| C73 | Using a NodeGenerator again | invariant of the generator state over all histories, then equality of the two calls | GenFilesProps: `reuse_without_callbacks`, `header_history`, `header_declares`, `reuse_with_callbacks_refuted`, `reuse_without_input_refuted`, `reuse_after_failure_refuted` |
| C74 | The generated Com layer sends and receives through the node | semantics of the Com statements over the functions of the node; one step by inversion and the theorems about Write and Read, histories by induction; variables by an invariant over the senders | ComProps: `com_delivers`, `com_files`, `com_links`, `shared_variable_refuted`, `init_apart_refuted`, `source_without_header_refuted` |
| C75 | The generated source is C, and its Write and Read functions do what the ports need | a lexer and a parser for the part of C the files use; printing lemmas (lex, then parse) for every line the generator writes, uniqueness of the reading, then execution of the parsed statements refined to the statements of C60 and C61 | CTextProps: `source_is_c`, `write_in_text`, `read_in_text`, `member_name_refuted`, `port_name_refuted` |
| C76 | Init, constants and notification in the generated text | the parsed declarations and the statements of Init and of the notification function, executed; refined to C60 and C62 | CTextProps: `init_in_text`, `constants_in_text`, `state_in_text`, `notify_in_text`, `handler_text_refuted` |
| C77 | The generated headers declare exactly what the source defines | a preprocessor for guards over the parsed lines; the prototypes left are parsed and compared with the heads of the parsed functions; types by C73 and the parsed notification function | CLinkProps: `header_in_text`, `callbacks_in_text`, `same_guard_refuted` |
| C78 | The generated text of the Com layer works with the generated text of the node | printing lemmas for the statements of the Com layer; the functions read from both texts run as those of C74, by congruence of the semantics | CLinkProps: `com_in_text`, `com_text_delivers`, `element_name_refuted` |
| C79 | A refused value stays inside its port | what each instruction may write, induction on the type for compiled code with any continuation; the members before the refused one by C24 on a prefix of the program | VmLeftProps: `left_after_success`, `refused_stays_in_window`, `small_buffer_untouched`, `any_code_keeps_prefix`, `members_before_written`, `items_before_written`, `all_or_nothing_refuted` |
| C80 | A call on a node that raises leaves a sound node behind | the calls again with the world and node at the moment of raising, shown to agree with the model; a failing declaration binds a prefix of its references; a failing merge is a merge of the ports before (C42) and some types | NodeLeftProps: `left_type_call`, `left_port_call`, `left_append_call`, `left_extend_call`, `left_finalize_call`, `refused_type_changes_nothing`, `refused_port_changes_nothing`, `refused_type_can_be_added_later`, `refused_port_can_be_added_later`, `refused_type_later_refuted`, `refused_lines_leave_no_trace`, `refused_extend`, `extend_all_or_nothing_refuted`, `refused_finalize_reorders` |
| C81 | Compatible nodes can be merged | types that stand for the same have the same text; induction on the position of the type for its copy, then on the list of ports with compatibility as invariant; order of the ports by a relation on the list | MergeOkProps: `compatible_merge`, `compatible_again`, `extend_order`, `copy_into_new_node`, `copy_into_new_node_refuted` |
| C82 | A generator that has worked may be used again | the pending callbacks are empty after every such call; the two source texts are cut at the union and compared piece by piece; members and prototypes by an invariant on the history | GenReuseProps: `reuse_succeeds`, `reuse_files` |
| C83 | The old definition writer writes lines that mean the type | the codes as closed formulas of the range; mutual induction on types and members gives an element whose text the writer writes, then the round trip of signatures, lines and attributes | WriterProps: `written_type_read`, `written_range_fits`, `written_range_refuted`, `cyclic_record_raises`, `dangling_reference_raises`, `shipped_writer_writes`, `shipped_writer_refuted`, `written_attribute_read`, `written_parameter_lost_refuted` |
| C84 | Merging gives the same ports in any order and grouping | a definition gathers a set of definitions if it has exactly their ports and only their types; merging keeps this, and two definitions that gather the same set are compared by composing the moves of references; expansions by induction over the derivation | MergeOrderProps: `merge_any_order`, `merge_any_grouping`, `merge_any_order_refuted`, `merge_other_order_refuted` |
| C85 | Mirroring and merging commute | gathering is kept by mirroring, which moves no references; compatibility is kept too; then the comparison of C84 | MirrorMergeProps: `mirror_of_merge`, `mirror_of_compatible_merge`, `mirror_of_merge_refuted` |
| C86 | Splitting a definition and joining the parts gives it back | both parts are sorted definitions whose types come from the original; names in order make every sorted part readable; then gathering as in C84 through split, sort, join and sort | SplitJoinProps: `split_then_join`, `split_then_join_refuted` |
| C87 | The sorted result of apx_join does not depend on the order of the files | every type of a join is led to by a port, so that joins of the same set of definitions have types of the same names; sorted by distinct names they are equal as lists, references that go to the same names have the same numbers, and the text of a definition is unique | JoinOrderProps: `join_any_order`, `join_unsorted_refuted`, `join_any_order_refuted` |
| C88 | Which files apx_join can join | JoinOkSpec states when definitions can be joined (`joinable`: each is `compatible` with the empty definition and with every other, MergeOkSpec). `compatible_merged` shows that compatibility with two definitions carries over to their merge; by induction over the files extend_all succeeds, and finalize_ok, named_ordered and save_final give the success of the rest (`join_succeeds`). `join_every_order` adds C87 for the same bytes in every order. `ex_joinable` shows that two definitions with a shared type, a record and a shared port satisfy the hypotheses; `join_order_fails_refuted` and `join_disagreement_refuted` show what happens without them. | JoinOkProps: `join_succeeds`, `join_every_order`, `join_order_fails_refuted`, `join_disagreement_refuted` |
| C89 | Which definitions apx_split can split, and that joining gives the same file | `comes D P` (the types and ports of P are from D) holds of the parts and of their sorted versions; `parts_compatible` shows that any two such definitions are compatible, with `movable_moved` by induction on the position of a type. With add_port_from_ok the loops of the tool succeed (`head_ports_ok`, `tail_ports_ok`), and so do the rest of apx_split (`split_succeeds`) and, by C88, apx_join (`split_join_succeeds`). `split_join_same_text` compares the sorted definitions by `sorted_join_same` of C87 and so the texts. `ex_splittable` gives a definition that meets the conditions; `split_join_same_text_refuted` and `split_succeeds_refuted` show that they are needed. | SplitOkProps: `split_succeeds`, `split_join_succeeds`, `split_join_same_text`, `split_join_same_text_refuted`, `split_succeeds_refuted` |
| C90 | What a definition text says is accepted, and nothing else | completeness of the reading relation: every rule of reads_line makes process_line succeed and keeps the invariant `holds` (apply_type_ok, apply_port_ok and, for a type declared again, equality of the normalized texts from `refers`); induction over the lines; with types declared once the side condition follows from names_said; with the soundness of C38 this gives an equivalence; the relation is deterministic because type names are distinct | TextOkProps: `clear_text_accepted`, `clear_file_accepted`, `text_accepted_iff`, `file_accepted_iff`, `one_reading`, `again_by_number_refuted` |
| C91 | The mirror of joined files is the join of the mirrored files | `same_items D E` (each has the types and ports of the other) holds of a definition and its sorted version and is kept by mirroring; `items_compatible` shows that such versions can be joined whenever the originals can, so join_succeeds of C88 applies to the mirrored files. Both joins gather the same mirrored definitions (`items_gathers`, `gathers_all_mirrored`) and have the same type names (`needed_name`), so their sorted versions are equal by `sorted_join_same` of C87, and by `text_once` the texts are. | MirrorJoinProps: `mirror_of_join`, `mirror_of_unsorted_join_refuted` |
| C92 | Programs with arrays of records pack and unpack what they describe | `lays` relates shapes, values and bytes without the machine; `shape_code` is the program of a shape. `pack_all` and `unpack_all` by mutual induction over `lays`, for every state in which a record or array may begin (`place`, `uplace`: at the top, as an item, as a member), with the state after it; plain members by the leaf lemmas of C24 and C25. | VmArrayProps: `array_pack`, `array_unpack`, `array_pack_unpack`, `record_unpack_refuted`, `plain_item_refuted` |
| C93 | The machine packs from a value exactly what the program asks for | `gives` says what a shape asks for in a value, `trimmed` cuts the value down to that. `gives_pack` as `pack_all` of C92, with the list around the items open at both ends and a dict with at least as many entries as the record has members (`members_in`); `gives_trimmed` turns it into `lays`, so unpacking follows from C92. The two errors: the parts before are packed as before, then the next instruction fails, by cases over the shape of the missing part. | VmTrimProps: `pack_what_is_asked`, `unpack_what_was_asked`, `short_list_raises`, `missing_member_raises` |
| C94 | Short type names | `finalize_compacts` follows the steps of finalize with the numbering lemma used twice. For the text, the node with short names prints the same lines as a node whose types have these names as their own (`ids_text`: references to numbered types print positions, never names); that node stands for `with_short_names` of the sorted definition, which is linked and writable, so the round trip of C40 applies. | CompactProps: `finalize_compacts`, `compact_text`, `compact_normalized_refuted` |

## Trusted base

* The kernel of Coq 8.16.1 (`coqc`, and `coqchk` in the final check), including
  `vm_compute` used in examples.
* The transcription from Python to Gallina, checked by reading only.  Eleven examples
  in `GenTexts.v` and `GenFilesProps.v` compare the printed model with the expected
  files in `/repo/tests/expected_gen`; the examples of the other files follow `/repo/tests`
  and the documentation where there is something to follow.
* The meaning of the C statements in `GenSpec.v` (C60 to C62): memory as bytes,
  fixed width integers, `packLE`/`unpackLE` little endian, `memcpy` of bytes.

### Print Assumptions

`Print Assumptions` stands below every theorem listed in the table, in `AttrProps.v`, `AutosarProps.v`, `CLinkProps.v`, `CTextProps.v`, `ClientProps.v`, `ComProps.v`, `CompactProps.v`, `CompilerProps.v`, `ConcProps.v`, `FileMapProps.v`, `FileProps.v`, `FilesProps.v`, `GenFilesProps.v`, `GenProps.v`, `GenReuseProps.v`, `GrammarProps.v`, `ImportProps.v`, `JoinOkProps.v`, `JoinOrderProps.v`, `ManagerProps.v`, `MergeOkProps.v`, `MergeOrderProps.v`, `MirrorJoinProps.v`, `MirrorMergeProps.v`, `NetProps.v`, `NodeDataProps.v`, `NodeLeftProps.v`, `NodeProps.v`, `NumHeaderProps.v`, `ParserProps.v`, `PrintProps.v`, `ReadyProps.v`, `RmfProps.v`, `SigProps.v`, `SocketProps.v`, `SplitJoinProps.v`, `SplitOkProps.v`, `TesterProps.v`, `TextOkProps.v`, `ToolsProps.v`, `VmArrayProps.v`, `VmBackProps.v`, `VmLeftProps.v`, `VmProps.v`, `VmTrimProps.v`, `WriterProps.v`.  For
every one of them it prints "Closed under the global context": no axiom, neither
of the standard library nor of this development.

`coqchk` looks at whole files rather than single theorems, and names seven
parameters of the standard library, `Coq.ssr.ssrunder.Under_rel.{Under_rel,
Under_rel_from_rel, Under_relE, under_rel_done, Over_rel, over_rel, over_rel_done}`.
They belong to a module that `ZifyBool` (part of `lia`) loads; no theorem here
uses them.

## Modelled code

| file | modelled in | left out |
|------|-------------|----------|
| `numheader.py` | NumHeaderModel | nothing |
| `remotefile/__init__.py` | RmfModel, FileModel, ManagerModel | console output; `FILE_CLOSE` only as far as it gets before raising |
| `remotefile/socket_adapter.py` | SocketModel, NetModel | the operating system's socket: `recv` returns arbitrary chunks, `send` appends bytes |
| `apx/file.py`, `apx/file_map.py`, `apx/file_manager.py` | FileModel, ManagerModel, ConcModel | locks other than as atomic actions |
| `apx/base.py` | TypesModel, SigModel, AttrModel, NodeModel, AutosarModel | |
| `apx/compiler.py`, `apx/vm.py`, `apx/vm_base.py`, `apx/vm_state.py` | CompilerModel, VmModel, VmLeftModel | what a refused `struct.pack_into` leaves of its own bytes is an argument of VmLeftModel |
| `apx/node.py`, `apx/context.py` | NodeModel, NodeLeftModel, AutosarModel, FilesModel | |
| `apx/parser.py` | ParserModel, TextModel, FilesModel | |
| `util/*.py` | ToolsModel | argument parsing, help texts |
| `apx/node_data.py` | NodeDataModel | `NodeData` of a text, which always raises |
| `apx/client.py` | ClientModel, NetModel | TCP connection set-up; `stop` beyond ManagerModel |
| `apx/tester.py` | TesterModel, FloatModel | infinities, not-a-number, real time |
| `apx/apx_writer.py` | WriterModel | values of other Python types in the dictionaries |
| `apx/generator.py` | GenModel, GenFilesModel, ComModel | directories |

Not modelled at all: the `autosar` package (its objects are given as
trees), the `cfile` package (its printing is taken from the expected files), the APX
server (not in the repository: what it passes on is a hypothesis of C51),
performance and memory limits.

### Simplifications worth knowing

* A call that raises returns the exception only; where the state left behind
  matters (lock, file manager, node data, client, virtual machine, node) it is modelled and proved.
* `str.upper`, `isspace` and `int` are modelled for the characters that matter
  (ASCII letters; Python's white space below 256; ASCII digits and underscores).
* Base-2 logarithms of the AUTOSAR import and the old writer are exact; where floating point differs is
  said at `AutosarProps.v`.
* Disk: a path that can be opened names one file (no links, directories or rights),
  texts are encoded without loss, `normpath` is right for names without slash.
* Threads: the worker, the socket thread and the application are interleaved event
  by event; `OutputFile.write` is split into its three atomic actions in ConcModel.

* C (C75 to C78): the lexer and parser of CTextSpec.v cover the words, operators and
  statements the files use; comments of one line only, no trigraphs, conditional
  compilation only as include guards (C77), macros only as names of
  numbers. The functions `packLE`, `unpackLE`, `memcpy`, `apx_nodeData_*` are given by what they do to data.

## What the model says about the code

Found while modelling; the marked ones (R) are proved as refutations.

File manager and messages
* a `FILE_CLOSE` never works: NameError or struct error (R); a short file
  announcement raises AttributeError, an unrequested one AssertionError, a length
  mismatch NameError (R);
* files attached after the connection are never announced; addresses from 2^30
  on end the worker thread.

Files
* `FileMap.insert` raises UnboundLocalError for some placements although there is
  room (R); name lookup misses files (R).

Types, compiler, virtual machine
* 64 bit integers, single characters, references to arrays and references to
  references in records have a length but no program (R);
* array lengths are cut to 16 bits (R); types that can be packed but not unpacked
  (R); array members of records can only be written under a narrow condition (R).

Node data
* the lock is not released when the virtual machine raises, so that one rejected
  write blocks the node (R), and for a client its socket thread (R);
* ports of total length 0 give AttributeError; reading a provide port before any
  write returns the InitValue object; wrong counts in init lists can compensate
  each other between ports (R).

Definition language
* references inside a port's own record are not resolved; sorted types may
  refer forward (R); `extend` compares port texts only, so a conflicting
  type behind an existing port is accepted (R); `#` in a quoted name cuts the
  line; a PROVIDE section ignores other lines silently (R); a comment before the
  header makes it a parse error (R); `={}` is refused while `={,1}` is accepted.

Definition files
* a parser that is used again returns the node of the file before for an empty file
  (R); a save that raises leaves the replaced file cut off, and what is left may be
  accepted (R); `Context.save_apx` writes two nodes of one name to one file (R).

Tools
* sorting may put a type before the one it needs, and the file the tools then write is
  not read any more (R); a failing tool has cut off its input (R); a filter without
  file arguments asks for an output file it does not use (R);
* `apx_size` fails on a port with a record of its own that refers to a type (R);
  `apx_join` takes a file without a node for the one before (R); `apx_split --mirror`
  does not mirror the tail, `--tail_name` is never used, double port names lose a
  port (R).

AUTOSAR import
* signed 8 bit ranges raise AttributeError (misspelled name), powers of two are
  off by one, signed ranges only look at the maximum (R); arrays raise NameError
  (R); value tables that do not start at 0 are shifted (R); two types of one short
  name from different packages are taken for one (R).

Client and tester
* some error paths use the missing `self.port` and raise AttributeError (R); reading
  by the name of a type reads the provide port of the type's number;
* a falling ramp goes the wrong way (R); long ramps overshoot (R).

Generator
* a record member that refers to a record generates nothing (R), one that refers
  to an array raises TypeError;
* the last character of a full string is lost (R);
* a write that starts in the middle of a port calls no callback (R); callbacks
  given but all None raise AttributeError (R); port names that differ only in case
  collide in the macros (R); a backslash in a name breaks the C literal (R);
* with a name override, or without input data, the Init function installs a function
  that is not defined (R); a generator object keeps callbacks, variables and the
  notification function of earlier nodes (R);
* names that are not identifiers of C make files that are not C (R); nodes whose names
  differ only in case share an include guard (R); two senders of the Com layer may
  share a variable and lose values (R).

## Testing the theorems

`seeded/LOG.jsonl` has one line per wrong program: the definition edited in a
scratch copy, the edit, the claim it breaks, the theorems that failed, and the
theorems tightened because they had not failed at first.
