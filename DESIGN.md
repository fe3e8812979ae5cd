# Formal model of libaxl — design

Subject: the C sources of libaxl in `/repo` (XML library). The code is read as
text, never run. This development is a Rocq (Coq 8.16.1) model of the code,
written function by function, with theorems about the model.

## Layout

* `rocq/theories/<Area>Model.v` — executable model of one area. Every definition
  cites file and lines, and says where it simplifies. No proofs.
* `rocq/theories/<Area>Exec.v` — drivers that run a history of API calls on a
  model (what a program does, not what the library does).
* `rocq/theories/<Area>Spec.v` — the independent specification used by the
  statements (sequences, maps, trees, grammars, languages). No reference to model
  helpers.
* `rocq/theories/<Area>Proofs*.v` — lemmas; `<Area>Cases.v` — concrete instances.
* `rocq/theories/<Area>Props.v` — only the property theorems (`Cnn_...`), each
  closed by `exact`, a few computed witnesses, with `Print Assumptions`, and
  examples of non-trivial instances meeting the hypotheses.
* `properties.jsonl`, `MANIFEST.json`, `seeded/LOG.jsonl` (wrong programs that the
  theorems were tried against).

## Conventions

* A byte is an `ascii`; a C string is the list of bytes before its NUL.
  Buffers are lists of bytes; an access outside a buffer is the outcome `UB`.
* Pointers are natural numbers into a heap; reading an unmapped or released cell,
  or dereferencing NULL, is `UB`.
* `int` is unbounded `Z`/`nat` (no overflow modelled: sizes beyond 2^31 are out
  of scope), allocation never fails and gives zeroed memory (`axl_new` is calloc),
  `axl_log` calls and the texts of errors are dropped.
* Loops are structural recursion where possible, otherwise explicit fuel with a
  distinct outcome `NoFuel` that theorems exclude (`exists n, forall fuel, n <=
  fuel -> ...`, or that a theorem shows unavoidable, for the non-termination
  findings: `forall fuel, ... = NoFuel`).
* Callbacks (comparison, hash, destroy, iteration handlers) are section
  variables that become universally quantified parameters.
* A property that is false of the faithful model has a theorem `Cnn_..._refuted`
  with a witness; what is provable has the suffix `_partial`, and the comment above
  the theorem says what is missing.

## What is modelled, and how each property is proved

| id | modelled | method |
|----|----------|--------|
| C01 | `ListModel`: heap-level doubly linked list with its pool of spare cells (axl_list.c) | representation invariant, refinement to `list`, induction over histories |
| C02 | axl_list_add, two-ended scan | sortedness and completeness under a total order; order of axl_list_equal_int refuted |
| C03 | internal lookup, exists, remove | equivalence with membership on sorted lists; refuted for equal_string/equal_ptr |
| C04 | pool of cells | invariant linked + spare = allocated; refuted for axl_list_add of an equal element |
| C05 | list cursor | enumeration theorem, removal theorem |
| C06 | axl_list_copy | equality for sorted lists and always_return_1; refuted in general |
| C07 | `StackModel`: array stack | refinement |
| C08 | `StackModel`: run-length stack, bytes | refinement to `list bool` |
| C09 | `HashModel`: bucket table with chains, rehash | refinement to association lists, all histories |
| C10 | destroy events as a trace | multiset equality of inserted and destroyed |
| C11 | foreach, cursor | permutation of contents; refuted parts with witnesses |
| C12 | axl_hash_copy | lookup equality |
| C13 | `FactoryModel`: slab accounting | interval disjointness invariant; refuted for large items |
| C14–C18 | `StrModel`: string functions on buffers | equality with specifications, UB-freeness; refutations |
| C19–C20, C45 | `EscModel`: escape, unescape, size pass, contents | round trip, size agreement; refutations with explicit sizes |
| C21, C48 | `AttrModel`: attribute list/hash, cursor | refinement to a first-wins map; refutation of removal at 11 |
| C22 | `DumpModel`: size pass and dump pass over trees | structural induction; refuted for negative widths |
| C23, C27, C28 | `DumpModel`, `ParseModel`, `StreamModel` | written text is in the grammar of `XmlSpec`; C49 |
| C24 | stream tokenizer and parser | progress measure, simulation by a parser on lists; refuted over-read |
| C25–C26 | the same | every accepted text is in the wider grammar of `SoundSpec` |
| C29, C30, C47 | `FindModel` on the links of `ItemModel` | invariants of C32; preorder and level order; path semantics |
| C31 | `EqModel` | equivalence theorems; refutations |
| C32 | `ItemModel`: heap-level items and nodes | link invariant over histories of edits, refinement to a family of trees; refutations |
| C33–C35 | `DtdModel`: content validation with its backtracking loops | language semantics; classes of specifications; refutations |
| C36–C38, C44 | `DtdDocModel`: whole documents, IDs, attributes, root search, entities | implication theorems, exactness for a class; refutations |
| C39 | `NsModel`: namespace tables | equivalence with a scoping specification; refutations |
| C40–C41 | `BabelModel`: UTF-8 check, single byte decoding | equivalence, chunk independence, finite table check |
| C42 | file stream with 8192-byte buffer | simulation memory/file for classes of texts; refuted with witnesses |
| C43 | xml:space stack | partial; refuted |
| C46 | `NoteModel`: annotations | refinement to a map per node |
| C49 | parser | every text of the grammar is accepted with its tree |
| C50–C51 | `LoadModel`: axl_dtd_parse | simulation by a loader on lists; grammar of declarations; progress measure; for references, the length of the text with the references replaced, by rank of the entities; refutations |
| C52 | `FreeModel`: release of nodes and items | ownership invariant over histories; refutations |
| C53 | `DtdEqModel`: axl_dtd_are_equal | decision theorem; refutations |
| C54 | `PiModel`: processing instructions | refinement over the histories of C32; refutation |
| C55 | `ValidModel`: parsed document against loaded DTD | composition of C34, C37, C38, C49, C50 |
| C56 | `LinkModel`: the parser once more, building the links of `ItemModel` | simulation of the parser on values; the spine of opened nodes; then C29, C30, C32, C47, C49 |
| C57 | `BdocModel`: the parser with the handlers of Babel | the parser with Babel as a function of the text (C34 and C36 lemmas); conversion commutes with the comments read before it; then the grammar of C34, C58 for what does not fit |
| C58 | nothing new: `ParseModel` on beginnings of texts | induction on the grammar of C34, for every cut: the parser runs out of text with an open element |
| C59 | `OwnModel`: who owns the memory of nodes, attributes, contents and items | invariant over all histories: the blocks allocated are those of the trees, flags tell malloc from pools; induction on trees for release and copy; refutations |
| C60 | `RepModel`: the parser again, with the blocks it allocates, the link between stream and document, and the errors it stores | simulation of `ParseModel` step by step (`rel`), with the invariant that the live blocks are those of stream, document, last chunk and errors; refutation for the lost chunk; for files the invariant of C71 keeps every copy inside the buffer (`FrepProofs*`), and the buffer a part of the file (`FwinProofs`) |
| C61 | `DrepModel`: the loader of DTDs again, with the blocks it allocates and the errors it stores | simulation of `LoadModel` with the invariant that the live blocks are those of the stream, the DTD and what the function at work holds; the position in a file stays within ten bytes of what was read, so that its surroundings can be quoted; which errors leave a block is proved exactly; refutations |
| C62 | `VerrModel`: the validator again, with its errors and the blocks it allocates | agreement with `DtdModel`/`DtdDocModel` by induction on content models and fuel; loop invariant (elements seen so far, identifiers and references collected from them) for the truth of errors; refutations |
| C63 | `SaveModel`: the dumps to files, with what fopen, fwrite and fclose do as a parameter | C22 for the text; every `>` of a dump is followed by a tag or by text that does not begin with white space (induction on trees); then C42 and C34; refutations |
| C64 | `StreamModel`, `BdocModel`: streams on files with a handler that converts or checks | invariant: what is in the window, the store and the file together are the rest of the text; histories of takes and requests by induction; refutations by documents; a search on a stream that stands still by induction on its fuel |
| C65 | `KeepModel` (the memory of `OwnModel` with the documents that nodes keep), `NparseModel` (texts in pieces) | invariant over all histories: a document kept is alive, kept once, has no root, and its node is in a tree in hand; releasing a tree commutes with the deaths of the documents kept in it; joining by induction on the pieces; refutations by runs |
| C66 | `PyModel`: the objects of py-axl with their reference counts, the trees of nodes they refer to, and the actions of a program | invariant over all programs: counts are the references there are, every loose tree and every document has exactly one object that releases it, every object refers to a node of some tree; preserved by each action; refutations by runs |
| C67 | `NserrModel`: the validation of namespaces with the errors it reports and the cursors it makes and releases | induction on the tree, with the tables of C39 for the declarations in force; order of elements as order of paths; the prefix xml and attributes like xmlnsfoo refuted |
| C68 | `NsmemModel`: elements whose attributes are strings in memory, tables that point to them, the validation, axl_ns_node_cmp, and programs that add elements, set and remove attributes and validate; `NsmemSpec` has the document as plain text | an invariant between memory and text (every string owned once), and one between tables and declarations that is kept by calls that release no declaration; witnesses for the other calls |
| C69 | `KnifeModel`: axl_stream_get_until_zero on file streams, axl_knife_dtd_to_c with its two passes, the name of the macro; `KnifeSpec` has what a C compiler makes of the header (joined lines, string literals, identifiers) and the text on one line | what a call returns at any place of the buffer, by induction on the turns; the lines of a file by induction on its length; that a text on one line has the same declarations by induction on the grammar of C50; witnesses for backslashes, quotes, line ends in values, and file names |
| C70 | `HtmlModel`: axl_knife_htmlize and the functions it calls, on the trees of TreeModel; `HtmlSpec` has what a browser shows of a page (tags unseen, character references replaced), a part of HTML | what is seen of an element is an `elem_text` of a tree that is the `same` as the given one up to white space, by induction on `proper` trees: the white space after a text is joined to it, the one before a tag is dropped; read again with C49; counterexamples by vm_compute |
| C71 | `StreamModel` and `ParseModel` as they are (file streams, FD): no new model | a stream is either normal (unread bytes `w` of the buffer, rest `f` of the file) or `over` (old bytes behind the end were taken for a text, the position is behind the end); what remains is always a suffix of the file; the measure is its length, plus one while the file is open; each loop of the parser makes it smaller, because a comparison that saw old bytes closes the file next; reading up to a terminator by induction on bytes to look at plus twice the bytes still in the file |
| C72 | `AskModel`: the questions that can be asked to a loaded DTD, over the DTD of DtdDocModel | `AskSpec` says when answers look like a written content (`looks`); induction on contents, both that the loaded content looks so and that only one content does; top level through the search for mentions already used for the root (C50) |
| C73 | `FmtModel`: the printf-like functions of axl_stream.c with and without vasprintf over a model of vsnprintf and va_list (a list that becomes stale when it was read), and the texts of axl_error.c | `FmtSpec` reads a format from left to right (`prints`); writing into buffers byte by byte with out-of-bounds as UB |
| C74 | `LoadModel` over the file streams of `StreamModel` | `FdtdProofs`: an invariant of the buffer that holds even after stale positions (it ends with its terminator) excludes UB; `FdtdProofs2`: the bytes left in the buffer and in the file decrease; `FdtdProofs3`: a simulation between the loader on a file stream (buffer and unread file) and its version on texts |
| C75 | `ExargModel`: exarg.c (installing options, their relations, exarg_parse and its checks, the queries); `ExargSpec` says what a command line says, as a relation on words | `ExargProofs`: the loop and the relation agree in both directions, by induction on the arguments; the checks are the conditions of the specification |
| C76 | `ExargModel`: main of axl-knife.c over an abstract state of the files; `KtoolSpec` has the table of options and what they ask for | `KtoolProofs`: the answers of the options (C75) decide each branch of main |

Every property is expressible in the model; none is marked not applicable. Most
are `partial` because the full statement is false of the code: the refutations
say where.

## Modelled and not modelled

Modelled, with the simplifications written at the top of each model file:

* axl_list.c, axl_stack.c, axl_hash.c, axl_factory.c: all that is not a wrapper.
* axl_stream.c: the string helpers, the reading functions for memory and files, and the
  installation and use of decoders.
* axl_node.c: attributes, contents, escaping, links, search, iteration, comparison, copy,
  annotations, processing instructions, release, nodes made from text, and who owns the
  memory of names, attributes, contents and items.
* axl_doc.c: the parser (its result, its links, its errors and its memory), the writer,
  dumps to files, search, iteration, processing instructions.
* axl_dtd.c: the loader (its result, its errors and its memory), validation and its
  errors, root search, comparison, lookups, release.
* ns/: all but the release of tables; the errors it reports.
* axl_error.c: all but the formatting of messages.
* babel/: detection, the single byte tables, decoding, checking, and the parser with its
  handlers installed, for documents in memory and in files.
* py-axl: what the objects axl.Doc, axl.Node and axl.AttrCursor refer to and release.

Not modelled: axl_log.c, the printf family, the rest of py-axl, the texts that axl-knife prints about its options, the test programs,
the memory of annotations other than the document a node keeps, thread safety, allocation failure, integer overflow, and the NULL arguments that are
refused at the entry of a function.

Functions whose lines no definition cites. They are either thin wrappers or accessors of
cited functions, represented by them, or not modelled (list made by comparing the
citations with the sources):

* axl_babel.c (2 of 8): axl_babel_finish, axl_babel_identity_utf8
* axl_ns_doc.c (1 of 6): __axl_ns_free_table
* axl.c (2 of 2): axl_init, axl_end
* axl_decl.c (3 of 3): axl_calloc, axl_realloc, axl_free
* axl_doc.c (18 of 57): __axl_doc_clean, __axl_doc_alloc, axl_doc_create, axl_doc_get_flat_size, axl_doc_get_flat_size_pretty, __axl_doc_get_file_size, axl_doc_are_equal_full, __axl_doc_get_are_equal, axl_doc_get_content_at, axl_doc_get_encoding, axl_doc_get_standalone, axl_doc_pop_current_parent, axl_doc_iterate, axl_doc_iterate_full, axl_doc_iterate_full_from, axl_doc_get_item_factory, axl_doc_set_detect_codification_func, axl_doc_set_configure_codification_func
* axl_dtd.c (2 of 61): __axl_dtd_new, __axl_dtd_queue_items
* axl_factory.c (4 of 9): axl_factory_spare_max, axl_factory_spare_next, axl_factory_free, axl_string_factory_free
* axl_hash.c (12 of 46): axl_factory_get, axl_hash_foreach2, axl_hash_foreach3, axl_hash_foreach4, axl_hash_show_status, axl_hash_show_status_full, __axl_hash_spare_max, __axl_hash_spare_next, axl_hash_cursor_first, axl_hash_cursor_last, axl_hash_cursor_hash, axl_hash_cursor_free
* axl_list.c (11 of 56): __axl_list_always_true, axl_list_set_destroy_func, axl_list_internal_linear_lookup_ptr, axl_list_remove_at, axl_list_unlink_at, axl_list_unlink_first, axl_list_remove_last, axl_list_unlink_last, axl_list_find_string, axl_list_cursor_list, axl_list_cursor_free
* axl_log.c (5 of 5): axl_log_is_enabled, axl_log_color_is_enabled, axl_log_enable, axl_log_color_enable, axl_log
* axl_node.c (17 of 150): axl_node_get_attribute_value_copy, axl_node_set_is_empty, axl_node_set_have_childs, axl_node_attr_cursor_first, __axl_node_attr_foreach_aux, axl_item_new, axl_item_get_doc, axl_item_set_doc, axl_item_node_next, axl_item_node_previous, axl_item_node_holder, axl_item_get_content, axl_item_factory_create, axl_item_factory_get, axl_node_factory_create, axl_item_content_factory_create, axl_item_attr_factory_create
* axl_stream.c (9 of 67): axl_stream_step, axl_stream_get_until_ref_zero, axl_stream_trim, axl_stream_strdup_n, axl_stream_strv_num, axl_stream_freev, axl_stream_to_lower, axl_stream_to_upper_copy, axl_stream_to_lower_copy

The parser and the link structure are two models of the same tree: `TreeModel`
(values, used for parsing, writing, comparing) and `ItemModel` (heap cells, used for
edits, search and release). C56 proves that a parser that builds the links of `ItemModel`
as the code does (`LinkModel`) agrees with the parser of `TreeModel`, and that its links
are those of a history of C32.

## Trusted base

* Coq's kernel (8.16.1) and its virtual machine (`vm_compute` in witnesses).
* `Print Assumptions` of every theorem `Cnn_...`: "Closed under the global
  context" for all of them (checked by printing all of them from one file). No axiom is used, neither of the standard library nor
  others.
* The reading of the C code recorded in the comments of the model files, and the
  conventions above.
* The standard library; no other library is used.
