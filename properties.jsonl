{"id": "C01", "title": "axlList behaves as a sequence", "statement": "Starting from an empty list, any interleaving of axl_list_append, axl_list_prepend, axl_list_add_at, axl_list_remove_first, axl_list_remove_last, axl_list_remove_at, axl_list_remove_ptr, axl_list_get_nth, axl_list_get_first, axl_list_get_last and axl_list_length gives exactly the answers of an ordinary finite sequence, whatever the comparison function; no operation follows a dangling or stale link.", "quantifier": "every finite history of list operations, every data value, every comparison function, every index (also negative and too large)", "why_tests_cant": "Histories and link configurations are unbounded; a stale next/previous pointer only shows up after particular insertion/removal orders.", "anchors": ["src/axl_list.c:axl_list_append", "src/axl_list.c:axl_list_prepend", "src/axl_list.c:axl_list_add_at", "src/axl_list.c:__axl_list_remove_selected_node", "src/axl_list.c:axl_list_get_nth"]}
{"id": "C02", "title": "axl_list_add keeps the list ordered", "statement": "When the comparison function is the sign of a total order, a list filled only with axl_list_add is always strictly ordered, contains every element ever added and not removed, and contains each exactly once; adding an element equal to a stored one leaves the sequence unchanged. axl_list_equal_int documents an order from small to big.", "quantifier": "every sequence of insertions, every total preorder comparison returning -1/0/1", "why_tests_cant": "The insertion scans from both ends at once; correctness depends on where the two scans meet for every length and rank.", "anchors": ["src/axl_list.c:axl_list_add", "src/axl_list.c:axl_list_equal_int", "src/axl_list.c:axl_list_order_string"]}
{"id": "C03", "title": "axl_list_exists and axl_list_remove find exactly the stored elements", "statement": "axl_list_exists answers true exactly when an element equal (under the comparison function) to the given one is stored, and axl_list_remove removes exactly that element, for lists built with axl_list_add under a total order and for the library's own comparison functions.", "quantifier": "every list content, every probe, every comparison function shipped by the library", "why_tests_cant": "A two-ended search can miss an element only for particular ranks and lengths.", "anchors": ["src/axl_list.c:__axl_list_internal_lookup", "src/axl_list.c:axl_list_exists", "src/axl_list.c:axl_list_remove", "src/axl_list.c:axl_list_equal_string", "src/axl_list.c:axl_list_equal_ptr"]}
{"id": "C04", "title": "List cells are neither shared nor lost", "statement": "At every moment each cell allocated by a list is either linked exactly once in the list or exactly once in its spare pool; a cell is never handed out twice while linked and never forgotten.", "quantifier": "every history of list operations", "why_tests_cant": "A leak or double use of a cell is invisible to a functional test that only looks at list contents.", "anchors": ["src/axl_list.c:__axl_list_allocate_nodes", "src/axl_list.c:__axl_list_dispose_node", "src/axl_list.c:__axl_list_get_next_node_available", "src/axl_list.c:axl_list_add"]}
{"id": "C05", "title": "Cursors enumerate the list once and in order, also while removing", "statement": "axl_list_cursor_first followed by axl_list_cursor_next until no item is left visits every element once and in order; removing the element under the cursor leaves the rest of the sequence untouched and positions the cursor on the successor (or on the new last element if there is none).", "quantifier": "every list, every choice of which visited elements get removed", "why_tests_cant": "The number of removal patterns is exponential in the list length.", "anchors": ["src/axl_list.c:axl_list_cursor_next", "src/axl_list.c:__axl_list_cursor_remove_common"]}
{"id": "C06", "title": "axl_list_copy yields an equal list", "statement": "axl_list_copy returns a list with the same elements in the same order as the original.", "quantifier": "every list, every comparison function", "why_tests_cant": "The copy re-inserts through the comparison function, so whether order and duplicates survive depends on content and comparator.", "anchors": ["src/axl_list.c:axl_list_copy"]}
{"id": "C07", "title": "axlStack is last-in first-out", "statement": "Any interleaving of axl_stack_push, axl_stack_pop, axl_stack_peek, axl_stack_size, axl_stack_is_empty and axl_stack_foreach behaves as a LIFO stack of the non-NULL values pushed, with no access outside its array.", "quantifier": "every history of stack operations", "why_tests_cant": "Array growth and count bookkeeping must be right at every capacity boundary.", "anchors": ["src/axl_stack.c:axl_stack_push", "src/axl_stack.c:axl_stack_pop", "src/axl_stack.c:axl_stack_foreach"]}
{"id": "C08", "title": "The binary stack is a stack of booleans", "statement": "Any interleaving of axl_binary_stack_push, _push_the_same, _pop, _peek, _size and _is_empty behaves as a LIFO stack of booleans, in spite of run-length storage.", "quantifier": "every history of operations", "why_tests_cant": "Run-length coalescing has to be right for every run pattern.", "anchors": ["src/axl_stack.c:axl_binary_stack_push", "src/axl_stack.c:axl_binary_stack_pop", "src/axl_stack.c:axl_binary_stack_push_the_same"]}
{"id": "C09", "title": "axlHash is a finite map", "statement": "For any hash function and key comparison that is an equivalence compatible with the hash, any history of axl_hash_insert, axl_hash_remove, axl_hash_delete, axl_hash_get, axl_hash_exists and axl_hash_items gives the answers of a finite map (last insertion wins), across every table growth.", "quantifier": "every history, every hash function (also badly colliding ones), every growth step >= 1", "why_tests_cant": "Rehashing moves every chain; an entry lost in one growth pattern needs a specific collision history to show.", "anchors": ["src/axl_hash.c:axl_hash_insert_full", "src/axl_hash.c:__axl_hash_remove_common", "src/axl_hash.c:__axl_hash_internal_lookup", "src/axl_hash.c:axl_hash_get"]}
{"id": "C10", "title": "Keys and values stored in a hash are destroyed exactly once", "statement": "Over the whole life of a hash, up to and including axl_hash_free, the destroy handler of every inserted key and of every inserted value runs exactly once for each insertion (and never for entries taken out with axl_hash_delete).", "quantifier": "every history of insert/replace/remove/delete followed by free", "why_tests_cant": "Double frees and leaks depend on replacement and removal patterns; tests check values, not destructor counts.", "anchors": ["src/axl_hash.c:axl_hash_insert_full", "src/axl_hash.c:__axl_hash_remove_common", "src/axl_hash.c:axl_hash_free"]}
{"id": "C11", "title": "Hash traversals visit every pair exactly once", "statement": "axl_hash_foreach and a cursor driven by axl_hash_cursor_first/axl_hash_cursor_next visit each stored pair exactly once; axl_hash_cursor_remove during the traversal removes only the pair under the cursor and no pair is skipped or visited again; axl_hash_cursor_last positions on a stored pair when there is one.", "quantifier": "every table shape reachable by insertions and removals, every removal pattern", "why_tests_cant": "Skips and revisits depend on which chain slot the cursor sits in.", "anchors": ["src/axl_hash.c:__axl_hash_foreach", "src/axl_hash.c:axl_hash_cursor_next", "src/axl_hash.c:axl_hash_cursor_remove", "src/axl_hash.c:axl_hash_cursor_last"]}
{"id": "C12", "title": "axl_hash_copy yields an equal map", "statement": "The table returned by axl_hash_copy answers axl_hash_get for every key as the original (with the copied value).", "quantifier": "every table, every key", "why_tests_cant": "The copy re-inserts into a table of another size.", "anchors": ["src/axl_hash.c:axl_hash_copy"]}
{"id": "C13", "title": "Factories never hand out overlapping memory", "statement": "Every block returned by axl_factory_get or axl_string_factory_alloc lies inside memory allocated by the factory, has the requested size, and is disjoint from every block handed out before and not given back.", "quantifier": "every sequence of requests and sizes, also requests larger than a slab", "why_tests_cant": "Off-by-one slab accounting corrupts a neighbour only for particular size sequences.", "anchors": ["src/axl_factory.c:axl_factory_get", "src/axl_factory.c:axl_string_factory_alloc", "src/axl_factory.c:axl_factory_release_spare"]}
{"id": "C14", "title": "axl_stream_trim removes exactly the surrounding white space", "statement": "axl_stream_trim_with_size turns a string into the longest substring that neither starts nor ends with white space, reports how many bytes were removed, and never touches memory outside the string.", "quantifier": "every string", "why_tests_cant": "Corner cases (all blank, empty, one character) times every blank pattern.", "anchors": ["src/axl_stream.c:axl_stream_trim_with_size", "src/axl_stream.c:axl_stream_is_white_space"]}
{"id": "C15", "title": "axl_stream_split and axl_stream_join are inverse", "statement": "Splitting a non-empty string by one separator cuts it at the leftmost non-overlapping separators, no piece contains the separator, and joining the pieces with the separator gives the string back.", "quantifier": "every string and non-empty separator (also self-overlapping ones)", "why_tests_cant": "Overlapping separators and separators at both ends.", "anchors": ["src/axl_stream.c:axl_stream_split", "src/axl_stream.c:axl_stream_join"]}
{"id": "C16", "title": "axl_stream_replace replaces the leftmost non-overlapping occurrences", "statement": "axl_replace returns the string in which every leftmost non-overlapping occurrence of the pattern is substituted; the computed buffer size is exactly the size written.", "quantifier": "every string, pattern and replacement", "why_tests_cant": "Size prediction and copying are two separate passes that must agree on every input.", "anchors": ["src/axl_stream.c:axl_replace"]}
{"id": "C17", "title": "String comparison functions decide equality", "statement": "axl_cmp is true exactly for equal strings, axl_casecmp exactly for strings equal up to ASCII case, axl_memcmp exactly when both strings start with the same n characters (n at least 1), axl_list_equal_string reports 0 exactly for equal strings; none reads beyond the terminators.", "quantifier": "every pair of strings, every length", "why_tests_cant": "Reads past the terminator and empty-string cases.", "anchors": ["src/axl_stream.c:axl_cmp", "src/axl_stream.c:axl_casecmp", "src/axl_stream.c:axl_memcmp", "src/axl_stream.c:axl_stream_cmp", "src/axl_list.c:axl_list_equal_string"]}
{"id": "C18", "title": "axl_stream_remove stays inside the string", "statement": "axl_stream_remove deletes occurrences of the pattern and never reads or writes outside the string's memory.", "quantifier": "every string and pattern", "why_tests_cant": "An out-of-bounds write of one byte before the buffer is silent in most runs.", "anchors": ["src/axl_stream.c:axl_stream_remove"]}
{"id": "C19", "title": "Escaping is invertible and sound", "statement": "For every string s, the escaped form produced by axl_node_content_copy_and_escape contains no markup-significant character (< > quotes, and & only as start of one of the five entities) and translating it back (axl_node_get_content_trans / axl_node_get_attribute_value_trans) gives s.", "quantifier": "every NUL-free byte string", "why_tests_cant": "Interaction between adjacent entities, ]]> and partial entity names is unbounded.", "anchors": ["src/axl_node.c:__axl_node_content_copy_and_escape", "src/axl_node.c:__axl_node_content_translate_defaults", "src/axl_node.c:axl_node_set_attribute"]}
{"id": "C20", "title": "Escaping never overruns its buffer", "statement": "axl_node_set_content, axl_node_set_cdata_content, axl_node_set_attribute and axl_node_content_copy_and_escape write exactly the number of bytes computed beforehand and stay inside the allocated block, for every content and every explicit content size not larger than the content.", "quantifier": "every content and size argument", "why_tests_cant": "A one-byte heap overflow that needs a markup sequence straddling the size limit.", "anchors": ["src/axl_node.c:__axl_node_content_copy_and_escape", "src/axl_node.c:__axl_node_has_invalid_chars_internal", "src/axl_node.c:axl_node_set_content"]}
{"id": "C21", "title": "Attributes form a map, across the list/hash switch", "statement": "axl_node_set_attribute, axl_node_has_attribute, axl_node_get_attribute_value, axl_node_remove_attribute and axl_node_num_attributes behave as a map from names to values where the first value set is kept; growing beyond ten attributes or shrinking back loses or changes nothing.", "quantifier": "every history of attribute operations on a node", "why_tests_cant": "The representation changes at 10/11 attributes; values must survive both directions.", "anchors": ["src/axl_node.c:__axl_node_set_attribute", "src/axl_node.c:axl_node_remove_attribute", "src/axl_node.c:axl_node_has_attribute"]}
{"id": "C22", "title": "Dumps have exactly the predicted size", "statement": "axl_doc_dump, axl_doc_dump_pretty and axl_node_dump write exactly the number of bytes computed by the size pass, hence never outside the allocated buffer, and report that size.", "quantifier": "every document tree, plain and pretty, every tabular width", "why_tests_cant": "Size and writing are two independent recursive passes; they must agree on every tree.", "anchors": ["src/axl_node.c:axl_node_get_flat_size", "src/axl_node.c:axl_node_dump_at", "src/axl_doc.c:axl_doc_get_flat_size_common", "src/axl_doc.c:__axl_doc_dump_common"]}
{"id": "C23", "title": "Parsing a dump gives the document back", "statement": "For every document whose names, attribute values and text can be written as XML, axl_doc_parse applied to the output of axl_doc_dump succeeds and yields the same tree (names, attributes, text, CDATA, comments, processing instructions, order).", "quantifier": "every well-formed document tree, of any depth and width", "why_tests_cant": "Tree space is unbounded; whitespace and escaping interact across siblings.", "anchors": ["src/axl_doc.c:axl_doc_parse", "src/axl_doc.c:axl_doc_dump", "src/axl_doc.c:__axl_doc_parse_node", "src/axl_node.c:axl_node_dump_at"]}
{"id": "C24", "title": "The parser always terminates inside its buffer", "statement": "axl_doc_parse on any byte buffer of any length terminates, returns either a document or an error, and reads only inside the buffer.", "quantifier": "every byte buffer, also with embedded NUL bytes", "why_tests_cant": "Hostile inputs are unbounded.", "anchors": ["src/axl_doc.c:__axl_doc_parse_common", "src/axl_stream.c:axl_stream_get_untilv_wide", "src/axl_stream.c:axl_stream_common_inspect"]}
{"id": "C25", "title": "Accepted documents are balanced and well-formed", "statement": "If axl_doc_parse accepts an input, every opened element is closed by a tag of the same name in proper nesting, the input contains nothing but white space, comments and processing instructions after the root element, and element names are not empty.", "quantifier": "every byte buffer accepted by the parser", "why_tests_cant": "Over-acceptance needs inputs nobody thought to test.", "anchors": ["src/axl_doc.c:__axl_doc_parse_close_node", "src/axl_doc.c:__axl_doc_parse_node", "src/axl_doc.c:__axl_doc_parse_common"]}
{"id": "C26", "title": "No accepted element carries two attributes with the same name, and every attribute has a value", "statement": "In every document returned by axl_doc_parse the attribute names of each element are pairwise distinct, and every attribute has a (non-NULL) value.", "quantifier": "every byte buffer accepted by the parser", "why_tests_cant": "The check must hold at any number of attributes and at any depth.", "anchors": ["src/axl_doc.c:__axl_doc_parse_node", "src/axl_node.c:axl_node_has_attribute"]}
{"id": "C27", "title": "What can be parsed can be dumped", "statement": "axl_doc_dump of any document returned by axl_doc_parse is well defined (no NULL string is measured or copied) and the dumped text parses again.", "quantifier": "every byte buffer accepted by the parser", "why_tests_cant": "A NULL component stays dormant until the document is dumped.", "anchors": ["src/axl_doc.c:axl_pi_get_size", "src/axl_doc.c:axl_doc_consume_pi", "src/axl_node.c:__axl_node_get_flat_size_attributes"]}
{"id": "C28", "title": "Well-formed comments and processing instructions are accepted anywhere and attached in order", "statement": "A comment or processing instruction inside an element never makes a well-formed document unacceptable and becomes a child item at its position.", "quantifier": "every well-formed document and every insertion point", "why_tests_cant": "Empty bodies and delimiters at the edges.", "anchors": ["src/axl_doc.c:axl_doc_consume_comments", "src/axl_doc.c:axl_doc_consume_pi", "src/axl_stream.c:axl_stream_get_untilv_wide"]}
{"id": "C29", "title": "axl_doc_iterate visits every element once in document or level order", "statement": "axl_doc_iterate with DEEP_ITERATION calls the handler once per element in document order, with WIDE_ITERATION once per element in breadth-first order, stopping as soon as the handler returns false; when the handler removes the current element its subtree is not visited.", "quantifier": "every tree, every handler decision sequence", "why_tests_cant": "Tree shapes and removal decisions are unbounded.", "anchors": ["src/axl_doc.c:__axl_doc_iterate_common", "src/axl_doc.c:axl_doc_iterate"]}
{"id": "C30", "title": "axl_doc_get finds an element by path", "statement": "axl_doc_get with an absolute path of element names returns an element whose names from the root spell the path, whenever such an element exists, and NULL when none exists.", "quantifier": "every tree, every path", "why_tests_cant": "Whether a lookup must consider several siblings with the same name depends on the tree.", "anchors": ["src/axl_doc.c:axl_doc_get_list", "src/axl_node.c:axl_node_get_child_called"]}
{"id": "C31", "title": "Document equality is an equivalence, and copies are equal", "statement": "axl_doc_are_equal and axl_node_are_equal are reflexive, symmetric and transitive, hold between a node and its axl_node_copy, and (for the untrimmed variant) distinguish documents whose text differs.", "quantifier": "every pair or triple of trees", "why_tests_cant": "Relations over unbounded trees.", "anchors": ["src/axl_doc.c:__axl_doc_are_equal", "src/axl_node.c:axl_node_are_equal_full", "src/axl_node.c:axl_node_copy", "src/axl_node.c:axl_item_are_equal_full"]}
{"id": "C32", "title": "Editing a tree keeps sibling and parent links consistent", "statement": "After any history of axl_node_set_child, axl_node_set_child_after, axl_node_remove/deattach, axl_node_replace, axl_item_remove, axl_item_replace and axl_node_transfer_childs on nodes that are not already attached, walking forward from the first child and backward from the last child gives the same items, all of whose parent links point to the parent, and no removed item is reachable.", "quantifier": "every history of tree edits, every kind of item", "why_tests_cant": "Link corruption only shows for the right position (first/last) and item kind.", "anchors": ["src/axl_node.c:axl_item_set_child_ref", "src/axl_node.c:axl_item_set_after", "src/axl_node.c:axl_item_remove", "src/axl_node.c:axl_item_replace", "src/axl_node.c:axl_item_transfer_childs_after"]}
{"id": "C33", "title": "DTD content-model validation accepts only matching children", "statement": "If axl_dtd_validate accepts an element declared with a content model, the sequence of its child element names belongs to the language of the model.", "quantifier": "every content model, every child sequence", "why_tests_cant": "Languages are infinite; over-acceptance needs the right combination of repetition marks.", "anchors": ["src/axl_dtd.c:__axl_dtd_validate_sequence", "src/axl_dtd.c:__axl_dtd_validate_choice", "src/axl_dtd.c:__axl_dtd_validate_item_list"]}
{"id": "C34", "title": "DTD content-model validation accepts all matching children of deterministic models", "statement": "For a deterministic content model (as XML requires), axl_dtd_validate accepts every element whose child names belong to the language of the model.", "quantifier": "every deterministic content model, every matching child sequence", "why_tests_cant": "Languages are infinite.", "anchors": ["src/axl_dtd.c:__axl_dtd_validate_sequence", "src/axl_dtd.c:__axl_dtd_validate_choice", "src/axl_dtd.c:__axl_dtd_validate_item_list"]}
{"id": "C35", "title": "DTD validation always terminates", "statement": "axl_dtd_validate returns for every document and DTD.", "quantifier": "every document, every DTD", "why_tests_cant": "Non-termination cannot be observed by a finite test.", "anchors": ["src/axl_dtd.c:axl_dtd_validate", "src/axl_dtd.c:__axl_dtd_validate_item_list"]}
{"id": "C36", "title": "DTD loading always terminates", "statement": "axl_dtd_parse returns for every input, in particular the search for the root element of the DTD ends for every set of element declarations.", "quantifier": "every set of element declarations, also mutually recursive ones", "why_tests_cant": "Non-termination cannot be observed by a finite test.", "anchors": ["src/axl_dtd.c:__axl_dtd_get_new_root", "src/axl_dtd.c:__axl_dtd_get_is_parent"]}
{"id": "C37", "title": "Validated documents have unique IDs and resolved references", "statement": "If axl_dtd_validate accepts a document, no two attributes declared ID carry the same value and every attribute value declared IDREF equals some ID value of the document; a document meeting these and all other constraints is not rejected because of them (an implied ID may be absent).", "quantifier": "every document and DTD", "why_tests_cant": "A global property over all element pairs.", "anchors": ["src/axl_dtd.c:axl_dtd_attr_validate", "src/axl_dtd.c:axl_dtd_validate_references", "src/axl_hash.c:axl_hash_equal_string"]}
{"id": "C38", "title": "Validated attributes obey their declarations", "statement": "If axl_dtd_validate accepts a document, every element with an attribute declaration list carries only declared attributes, all required ones, fixed ones with the fixed value, and enumerated ones with a listed value.", "quantifier": "every document and DTD", "why_tests_cant": "All element/attribute combinations.", "anchors": ["src/axl_dtd.c:__axl_dtd_attr_validate_foreach", "src/axl_dtd.c:__axl_dtd_attr_validate_required"]}
{"id": "C39", "title": "Namespace prefixes resolve to the nearest declaration", "statement": "axl_ns_doc_validate accepts exactly the documents in which every prefix used by an element or attribute name is declared on the element or an ancestor (xml being always declared), and axl_ns_node_cmp compares against the nearest enclosing declaration (or default namespace).", "quantifier": "every document", "why_tests_cant": "Scoping over unbounded nesting, shadowing and lookalike attribute names.", "anchors": ["ns/axl_ns_doc.c:__axl_ns_node_validate", "ns/axl_ns_doc.c:__axl_ns_node_check_and_install_ns_decls", "ns/axl_ns_node.c:axl_ns_node_cmp"]}
{"id": "C40", "title": "The UTF-8 check accepts exactly well-formed UTF-8", "statement": "axl_babel_check_utf8_content accepts a buffer exactly when it is a concatenation of well-formed UTF-8 sequences, never reads outside it, and reports the index of the first offending sequence.", "quantifier": "every byte buffer", "why_tests_cant": "Overlong, surrogate, truncated and out-of-range sequences at every position.", "anchors": ["babel/axl_babel.c:axl_babel_check_utf8_content"]}
{"id": "C41", "title": "Single-byte conversion is complete and independent of buffering", "statement": "Converting a single-byte encoded text through axl_babel_single_to_utf8 in any number of steps with any output buffer sizes yields the concatenation of the table entries, in order, without loss or duplication, never overruns the output, and for the shipped tables is well-formed UTF-8 that identifies the source byte.", "quantifier": "every input, every output buffer size sequence, every table", "why_tests_cant": "Split points are unbounded.", "anchors": ["babel/axl_babel.c:axl_babel_single_to_utf8", "src/axl_stream.c:axl_stream_decode", "babel/axl_babel_iso88591.c:axl_babel_build_iso88591_table"]}
{"id": "C42", "title": "Parsing from a file equals parsing from memory", "statement": "axl_doc_parse_from_file gives the same result as axl_doc_parse on the file's bytes, wherever the internal buffer boundaries fall.", "quantifier": "every file content, every size", "why_tests_cant": "Buffer boundaries meet tokens at arbitrary offsets; only particular lengths fail.", "anchors": ["src/axl_stream.c:axl_stream_prebuffer", "src/axl_stream.c:axl_stream_get_untilv_wide", "src/axl_doc.c:__axl_doc_parse_common"]}
{"id": "C43", "title": "xml:space governs exactly the element that declares it and its descendants", "statement": "Blank-only text between two tags is kept exactly when the nearest enclosing element carrying an xml:space attribute declares preserve.", "quantifier": "every document", "why_tests_cant": "The scope stack must stay aligned with element nesting on every document.", "anchors": ["src/axl_doc.c:__axl_doc_parse_node", "src/axl_doc.c:__axl_doc_parse_common", "src/axl_stack.c:axl_binary_stack_push_the_same"]}
{"id": "C44", "title": "Entity declarations are looked up by name and kind", "statement": "axl_dtd_entity_value returns the content of the first declaration with the given name and kind, and NULL when there is none.", "quantifier": "every list of declarations, every name", "why_tests_cant": "All declaration orders.", "anchors": ["src/axl_dtd.c:__axl_dtd_entity_lookup", "src/axl_dtd.c:axl_dtd_entity_value"]}
{"id": "C45", "title": "Text set on a node is read back", "statement": "axl_node_get_content_trans after axl_node_set_content or axl_node_set_cdata_content returns the original text; with several text and CDATA items it returns their concatenation in order.", "quantifier": "every text, every sequence of text items", "why_tests_cant": "All strings, including ]]> and entity-looking ones.", "anchors": ["src/axl_node.c:axl_node_set_content", "src/axl_node.c:axl_node_set_cdata_content", "src/axl_node.c:axl_node_get_content_trans"]}
{"id": "C46", "title": "Node annotations are a map with optional inheritance", "statement": "axl_node_annotate_get returns the value last stored under the key on the node, or with parent lookup on the nearest ancestor that has it.", "quantifier": "every tree and annotation history", "why_tests_cant": "All nesting depths and shadowing patterns.", "anchors": ["src/axl_node.c:axl_node_annotate_data_full", "src/axl_node.c:__axl_node_annotate_get_lookup"]}
{"id": "C47", "title": "Element search functions agree with document order", "statement": "axl_node_get_child_called, axl_node_get_child_nth, axl_node_get_child_num, axl_node_get_childs and axl_node_find_called return the first / n-th / number of / all matching element children (descendants in the documented search order), ignoring text, comments and processing instructions.", "quantifier": "every tree, every name and index", "why_tests_cant": "Mixed content layouts are unbounded.", "anchors": ["src/axl_node.c:axl_node_get_child_called", "src/axl_node.c:axl_node_get_child_nth", "src/axl_node.c:axl_node_find_called"]}
{"id": "C48", "title": "Attribute enumeration visits each attribute once", "statement": "axl_node_attr_foreach and a walk with an attribute cursor both show every attribute of the element exactly once, with the value axl_node_get_attribute_value returns, in the same order; a handler asking to stop sees no further attribute; asking a fresh cursor whether there is a next attribute is safe on every element.", "quantifier": "every history of attribute operations, every stopping handler", "why_tests_cant": "Two representations with different traversal code, any number of attributes.", "anchors": ["src/axl_node.c:axl_node_attr_foreach", "src/axl_node.c:axl_node_attr_cursor_new", "src/axl_node.c:axl_node_attr_cursor_next", "src/axl_node.c:axl_node_attr_cursor_has_next"]}
{"id": "C49", "title": "Well-formed texts are accepted", "statement": "Every well-formed document text (optional byte order mark, XML declaration, comments, DOCTYPE without internal subset, processing instructions, elements with attributes, text, CDATA, comments and processing instructions, to any depth) is accepted by axl_doc_parse and the document returned has exactly its elements, attributes, text, encoding and standalone mark, in order.", "quantifier": "every well-formed text, of any length and depth", "why_tests_cant": "The set of well-formed texts is infinite and recursive; tests try some of them.", "anchors": ["src/axl_doc.c:557-1290", "src/axl_stream.c"]}
{"id": "C50", "title": "A loaded DTD is the declared one", "statement": "axl_dtd_parse on well-formed element, attribute-list and entity declarations returns a DTD with exactly the declared elements (content specification included), attributes and entities, in order, and an element no other one contains as root; a document axl_dtd_validate accepts against it has only declared elements, whose content and attributes follow the declarations as written; malformed text is refused.", "quantifier": "every sequence of declarations, every layout of white space and comments, every nesting of groups, every document", "why_tests_cant": "Declarations nest without bound and the loader guesses the kind of a group from what it has read so far.", "anchors": ["src/axl_dtd.c:574-1939", "src/axl_dtd.c:__axl_dtd_get_new_root", "src/axl_dtd.c:axl_dtd_validate"]}
{"id": "C51", "title": "Loading a DTD is safe and ends", "statement": "axl_dtd_parse on any bytes never accesses memory out of bounds and returns.", "quantifier": "every byte string", "why_tests_cant": "Non-termination and rare out-of-bounds accesses need the right input.", "anchors": ["src/axl_dtd.c:574-1939", "src/axl_dtd.c:__axl_dtd_get_new_root"]}
{"id": "C52", "title": "Releasing nodes releases their trees exactly once", "statement": "axl_node_free, and axl_node_remove, axl_node_replace, axl_item_remove and axl_item_replace with dealloc, release the node or item and everything below it, each block once, and nothing else; nothing released is accessed afterwards, the other trees are unchanged, and once every node has been released nothing is left in memory.", "quantifier": "every history of creations, insertions, moves, replacements, removals and releases", "why_tests_cant": "Ownership of the items that hold nodes depends on the whole history; leaks and double frees appear only in particular orders of calls.", "anchors": ["src/axl_node.c:axl_node_free", "src/axl_node.c:axl_item_free", "src/axl_node.c:axl_node_remove", "src/axl_node.c:axl_node_replace", "src/axl_node.c:axl_item_remove", "src/axl_node.c:axl_item_replace"]}
{"id": "C53", "title": "DTDs compare equal exactly when their rules are the same", "statement": "axl_dtd_are_equal returns true for two DTDs with the same rules (elements with their contents, attributes, entities) and false otherwise, whatever the layout of the texts they come from; it is reflexive and symmetric and never accesses anything out of the rules.", "quantifier": "every two DTDs, with any number of rules and any nesting of groups", "why_tests_cant": "The comparison walks two unbounded structures in parallel; the pairs on which it looks at too little are unlikely in a test.", "anchors": ["src/axl_dtd.c:axl_dtd_are_equal"]}
{"id": "C54", "title": "Processing instructions are found where they were put", "statement": "axl_node_has_pi_target and axl_doc_has_pi_target tell whether the node (among its children) or the document has an instruction of that name, the content returned is that of the first one, and the list returned has all of them in order; the list of a node may be released as documented without affecting the node.", "quantifier": "every history of additions of instructions, insertions, moves and removals of nodes and items", "why_tests_cant": "The answer depends on the whole history of edits, in which instructions are mixed with other items.", "anchors": ["src/axl_node.c:axl_node_add_pi_target", "src/axl_node.c:axl_node_has_pi_target", "src/axl_node.c:axl_node_get_pi_target_content", "src/axl_node.c:axl_node_get_pi_target_list", "src/axl_doc.c:axl_doc_add_pi_target", "src/axl_doc.c:axl_doc_has_pi_target", "src/axl_doc.c:axl_doc_get_pi_target_content", "src/axl_doc.c:axl_doc_get_pi_target_list"]}
{"id": "C55", "title": "A document accepted against a DTD is as the DTD says, from text to text", "statement": "When a program loads a DTD with axl_dtd_parse, parses a document with axl_doc_parse and validates it with axl_dtd_validate, the document is accepted exactly if it is valid: every element of its text is declared in the text of the DTD, its content and attributes are those declared, identifiers are distinct and references are to identifiers.", "quantifier": "every well-formed text of a DTD and every well-formed text of a document", "why_tests_cant": "Validity relates two unbounded texts; three large functions must agree for every pair of them.", "anchors": ["src/axl_dtd.c:axl_dtd_parse", "src/axl_doc.c:axl_doc_parse", "src/axl_dtd.c:axl_dtd_validate"]}
{"id": "C56", "title": "A parsed document can be walked, searched, visited and edited as its text says", "statement": "After axl_doc_parse or axl_doc_parse_from_file succeeds, following the links of the nodes (children in both directions, first and last child, parent, next, previous) shows exactly the tree of the text; paths, searches by name and visits from the root give the elements of the text in the promised order; and the editing functions work on parsed nodes as on created ones.", "quantifier": "every text, in memory or from a file, of any size and depth; every path, name and sequence of allowed edits", "why_tests_cant": "The links are set step by step while the text is read, with a stack of opened nodes; a wrong link shows only for some shapes and some later calls.", "anchors": ["src/axl_doc.c:__axl_doc_parse_common", "src/axl_doc.c:__axl_doc_parse_node", "src/axl_doc.c:axl_doc_consume_comments", "src/axl_doc.c:axl_doc_get", "src/axl_doc.c:axl_doc_iterate"]}
{"id": "C57", "title": "Documents in other encodings are read as their characters say", "statement": "After axl_babel_init, a document that declares one of the supported single byte encodings is parsed into the tree its characters spell, in UTF-8; a document declared as UTF-8 is checked to be so; ASCII documents are not affected; what is not supported is refused.", "quantifier": "every document text, with or without byte order mark and declaration, every supported encoding and every spelling of its name", "why_tests_cant": "The conversion works in place in the buffer of the stream, after the parser has read part of it; whether it is complete depends on the lengths of all the parts of the text.", "anchors": ["babel/axl_babel.c:axl_babel_detect_codification", "babel/axl_babel.c:axl_babel_configure_encoding", "src/axl_stream.c:axl_stream_setup_decode", "src/axl_stream.c:axl_stream_setup_check", "src/axl_doc.c:axl_doc_configure_encoding", "src/axl_doc.c:__axl_doc_parse_xml_header"]}
{"id": "C58", "title": "A document that was cut off is not accepted", "statement": "If a well-formed document loses its end, before the end of its root, axl_doc_parse reports an error; it never returns a document with part of the content. What follows the root makes no difference.", "quantifier": "every well-formed document and every proper beginning of it", "why_tests_cant": "Every position of every document is a case of its own: in the declaration, a comment, a name, a value, between two characters of a delimiter.", "anchors": ["src/axl_doc.c:__axl_doc_parse_common", "src/axl_doc.c:__axl_doc_parse_node", "src/axl_doc.c:__axl_doc_parse_xml_header", "src/axl_doc.c:axl_doc_consume_comments", "src/axl_stream.c:axl_stream_get_until_ref"]}
{"id": "C59", "title": "Memory of nodes and documents is released once, never too early and never forgotten", "statement": "Whatever a program does with nodes - creating them, letting the parser create them in the memory pools of a document, naming them, giving and taking attributes and contents, attaching, moving, replacing, removing, copying and releasing them, making them the root of documents, releasing documents - no call reads memory already released, no call releases memory twice or memory that belongs to a pool, and at any time the blocks allocated are exactly those reachable from the nodes the program still has, so that nothing is left when everything has been released. A copy shares no memory with the original.", "quantifier": "every sequence of calls, on any number of trees and documents, at any depth, with any number of attributes (list or hash); conditions: see the note", "why_tests_cant": "Ownership is decided by flags set when memory is obtained and looked at when it is released, in different functions; a wrong flag shows as a leak or a crash only for particular histories (parsed then renamed, more than ten attributes then fewer, moved between documents).", "anchors": ["src/axl_node.c:axl_node_free", "src/axl_node.c:axl_node_copy", "src/axl_node.c:axl_node_remove_attribute", "src/axl_node.c:axl_node_replace", "src/axl_doc.c:axl_doc_free"]}
{"id": "C60", "title": "A failed parse reports exactly one error, at a place of the text, and keeps no memory", "statement": "Parsing a document gives either a document and no error, or no document and - if the caller passed a variable for it - exactly one error, with a negative code, the size of the text, a byte of it and the text around that byte. Whatever the text is and wherever the parser gives up, no memory is touched after its release or released twice, and once the caller has released the document (axl_doc_free) or the error (axl_error_free), nothing that the call allocated is left.", "quantifier": "every text in memory, well-formed or not, of any size and cut off at any byte; every file; with and without an error variable", "why_tests_cant": "The parser gives up at more than forty places, each of which must store the error before it releases the stream, release what the stream does not own, and return at once; tests reach a few of them, and a leak or a second error overwriting the first goes unnoticed.", "anchors": ["src/axl_doc.c:__axl_doc_parse_common", "src/axl_doc.c:__axl_doc_parse_node", "src/axl_error.c:axl_error_new", "src/axl_stream.c:axl_stream_free", "src/axl_stream.c:axl_stream_get_near_to"]}
{"id": "C61", "title": "A failed load of a DTD reports exactly one error, at a place of the text, and keeps no memory", "statement": "Loading a DTD gives either a DTD and no error, or no DTD and - if the caller passed a variable for it - exactly one error with a negative code, that names a byte of the text and quotes it. No memory is touched after its release or released twice, and once the caller has released the DTD (axl_dtd_free) or the error (axl_error_free), nothing that the call allocated is left.", "quantifier": "every text in memory whose load returns, well-formed or not, of any size; every file whose load returns; with and without an error variable", "why_tests_cant": "The loader gives up at more than fifty places while it holds an element, an attribute list, a name, a specification of contents and an entity; each must be released exactly once by somebody.", "anchors": ["src/axl_dtd.c:__axl_dtd_parse_common", "src/axl_dtd.c:__axl_dtd_parse_element", "src/axl_dtd.c:__axl_dtd_parse_attlist", "src/axl_dtd.c:__axl_dtd_parse_entity", "src/axl_dtd.c:axl_dtd_free"]}
{"id": "C62", "title": "A failed validation reports exactly one error, which is true, and a successful one none", "statement": "Validating a document against a DTD either accepts it and sets no error, or rejects it and - if the caller passed a variable for it - sets exactly one error, and what it says is so: the attribute it names is not declared, is required and absent, has a value that is not allowed, the identifier is used twice, the reference refers to nothing, the element is not declared, the content of the element is not what its declaration asks for. Nothing but that error is left in memory, and the verdict does not depend on the variable.", "quantifier": "every DTD, every document, with and without an error variable", "why_tests_cant": "Errors are made at twenty-four places of mutually recursive functions that try alternatives; whether an error made while trying survives, is overwritten or is missing depends on the nesting of the groups.", "anchors": ["src/axl_dtd.c:axl_dtd_validate", "src/axl_dtd.c:__axl_dtd_validate_sequence", "src/axl_dtd.c:__axl_dtd_validate_choice", "src/axl_dtd.c:__axl_dtd_attr_validate", "src/axl_dtd.c:__axl_dtd_validate_references"]}
{"id": "C63", "title": "A document saved to a file can be loaded from it", "statement": "axl_doc_dump_to_file, axl_doc_dump_pretty_to_file, axl_node_dump_to_file and axl_node_dump_pretty_to_file answer true only if the file then holds exactly the text that the function without _to_file gives; if they answer false the file is as it was or incomplete. Parsing a file saved like this with axl_doc_parse_from_file gives a document with the same tree, encoding and standalone mark.", "quantifier": "every document and node, every layout and width, files of any size, every way in which opening and writing can fall short", "why_tests_cant": "The file is read through a buffer of 8192 bytes whose boundary may fall anywhere in the text; whether the same tree comes back depends on where tags, comments and white space meet it.", "anchors": ["src/axl_doc.c:axl_doc_dump_to_file", "src/axl_doc.c:axl_doc_dump_pretty_to_file", "src/axl_node.c:axl_node_dump_to_file", "src/axl_node.c:axl_node_dump_pretty_to_file", "src/axl_doc.c:axl_doc_parse_from_file"]}
{"id": "C64", "title": "A file in another encoding is converted while it is read, without loss and without repetition", "statement": "After axl_babel_init, axl_doc_parse_from_file reads a file of any size that declares one of the supported encodings as the document its characters spell: the bytes that the parser gets are the UTF-8 form of the bytes of the file, in order, none missing and none twice, wherever the blocks that are read from the file end and however much the text grows in the conversion; reading ends, and its result depends on the file alone.", "quantifier": "every conversion table, files of any size and any bytes, every sequence in which a reader takes bytes and asks for more, every value of variables that are not set", "why_tests_cant": "The stream keeps a window of converted bytes, a store of bytes not yet converted and the rest of the file, and grows its buffer when a character does not fit; what is delivered depends on how these three meet for each file size and each place of the characters that grow.", "anchors": ["src/axl_stream.c:axl_stream_prebuffer", "src/axl_stream.c:axl_stream_setup_decode", "babel/axl_babel.c:axl_babel_configure_encoding", "src/axl_doc.c:axl_doc_parse_from_file"]}
{"id": "C65", "title": "A node made from text keeps what it needs, and releases it exactly once", "statement": "axl_node_parse_strings, axl_doc_parse_strings and axl_node_parse read the text that their arguments make up when they are joined; the node returned has the name, attributes and content that the text says. The node can be changed, copied, put into documents and into other nodes, taken out and released like any other: the document it was read into lives as long as the node, is released with it exactly once, and no memory that belongs to it is touched afterwards.", "quantifier": "every cutting of every document text into strings; every sequence of calls that make, change, copy, move and release nodes and documents, with any number of nodes made from text in any places", "why_tests_cant": "The document is hidden in an annotation of the node and released in the middle of releasing the tree the node was put in; whether something outside still lives in its memory depends on all earlier calls.", "anchors": ["src/axl_node.c:axl_node_parse_strings", "src/axl_node.c:axl_node_parse", "src/axl_doc.c:axl_doc_parse_strings", "src/axl_node.c:axl_node_free"]}
{"id": "C66", "title": "The objects of the Python bindings keep what they refer to and release it exactly once", "statement": "A Python program uses documents and nodes through the objects axl.Doc, axl.Node and axl.AttrCursor, and gives up its references to them in any order. As long as it has a reference to an object, the document or node behind it is allocated; nothing is released twice; and when it has given up all references, all documents and nodes are released.", "quantifier": "every program: every sequence of parsing, making, moving around, reading, putting nodes into documents and other nodes, removing them, copying references and giving them up", "why_tests_cant": "What is released when a reference is given up depends on flags and reference counts that all earlier calls have set; the order in which references are given up is chosen by the interpreter.", "anchors": ["py-axl/py_axl_node.c:py_axl_node_dealloc", "py-axl/py_axl_node.c:py_axl_node_create", "py-axl/py_axl_node.c:py_axl_node_set_child", "py-axl/py_axl_doc.c:py_axl_doc_dealloc", "py-axl/py_axl_doc.c:py_axl_doc_set_attr"]}
{"id": "C67", "title": "A failed namespace validation reports exactly one error, which is true and is the first", "statement": "axl_ns_doc_validate reports exactly one error when it fails and none when it succeeds. The error says what is wrong with an element of the document (its name, or one of its attributes, has a prefix that is not declared there or above), and nothing is wrong with the elements that start before it. The memory used on the way is released.", "quantifier": "every document, of any depth and with any attributes", "why_tests_cant": "Which error is reported depends on the declarations in force at every element above, and on the order in which names, attributes and children are looked at; every early return has to release the cursor in use.", "anchors": ["ns/axl_ns_doc.c:axl_ns_doc_validate", "ns/axl_ns_doc.c:__axl_ns_node_validate", "ns/axl_ns_doc.c:__axl_ns_node_check_and_install_ns_decls"]}
{"id": "C68", "title": "Namespace answers stay right while the document is changed", "statement": "After axl_ns_doc_validate has found a document valid, elements and attributes may be added and removed, and the document validated again; axl_ns_node_cmp goes on telling, without reading released memory, what XML says about the document as it is.", "quantifier": "every document, parsed or made by calls, and every sequence of calls that add elements, set attributes, remove attributes or validate, of any length", "why_tests_cant": "The validation keeps pointers to the strings of the attributes. Whether these are still there depends on all later calls and on where the attributes came from, and a stale pointer usually still shows the old text.", "anchors": ["ns/axl_ns_doc.c:axl_ns_doc_validate", "ns/axl_ns_doc.c:__axl_ns_node_check_and_install_ns_decls", "ns/axl_ns_doc.c:axl_ns_doc_node_check", "ns/axl_ns_node.c:axl_ns_node_cmp", "src/axl_node.c:axl_node_remove_attribute"]}
{"id": "C69", "title": "The C header made from a DTD holds that DTD", "statement": "axl-knife writes, for a document type definition, a C header with one macro named after the file. A C compiler reads the macro as a string that holds the text of the file on one line, so that a program that loads the string gets the declarations of the file.", "quantifier": "every path and every content of the file, of any size and with any number of lines", "why_tests_cant": "The header goes through two readings of the file in buffers of 8192 bytes, a format whose width depends on all the lines, and then through the rules of C for joined lines and escapes; what comes out depends on every byte and on where the buffer ends.", "anchors": ["knife/axl-knife.c:axl_knife_dtd_to_c", "knife/axl-knife.c:axl_knife_file_name", "knife/axl-knife.c:axl_knife_clean_name", "src/axl_stream.c:axl_stream_get_until_zero", "src/axl_stream.c:axl_stream_to_upper"]}
{"id": "C70", "title": "The HTML page made from a document shows that document", "statement": "axl-knife --htmlize writes, for a document, an HTML page with coloured tags. What a browser shows of this page is the XML text of the document: read again, it gives the same elements, attributes, texts, CDATA sections and comments, up to white space around the texts.", "quantifier": "every document tree, of any depth and size, with any number of attributes, for all options of the command", "why_tests_cant": "The page goes through the escapes of HTML and the tags of the colouring, with an indentation that depends on the depth, and three ways of writing attributes; whether the text seen is still the document depends on every character and on every combination of items.", "anchors": ["knife/axl-knife.c:axl_knife_htmlize", "knife/axl-knife.c:axl_knife_htmlize_iterator_node", "knife/axl-knife.c:__translate_content", "knife/axl-knife.c:axl_knife_introduce_indentation"]}
{"id": "C71", "title": "Parsing a file always ends and stays inside its buffer", "statement": "axl_doc_parse_from_file returns for every file, whatever bytes it holds and wherever they are cut by the buffer; while it works it reads and writes only inside the buffer of the stream, which is filled again and moved while texts are being read.", "quantifier": "every file content: any bytes, NUL included, any length, so any number of refills of the buffer", "why_tests_cant": "Where the buffer ends inside a tag, a comment or white space depends on the whole content; the parser goes back in the buffer, compares with bytes that were left there before, and retries after each refill. Tests see a few positions of a few files.", "anchors": ["src/axl_stream.c:axl_stream_prebuffer", "src/axl_stream.c:axl_stream_get_untilv", "src/axl_doc.c:axl_doc_parse_from_file", "src/axl_doc.c:__axl_doc_parse_common"]}
{"id": "C72", "title": "A DTD answers questions about its declarations truthfully", "statement": "After a DTD has been loaded, axl_dtd_get_element finds exactly the declared elements; the kind of an element, and its content read item by item with axl_dtd_item_list_* and axl_dtd_item_node_*, are what was written, and positions outside of a list give NULL; axl_dtd_element_is_toplevel holds exactly for the elements that no content allows, among them the one given by axl_dtd_get_root; axl_dtd_get_attr_contraints is the number of attributes declared for an element, 0 if there are none.", "quantifier": "every text of well-formed declarations: any number of elements and attribute lists, any nesting of groups, any position asked for", "why_tests_cant": "The answers depend on the whole set of declarations and on the nesting of each content; tests ask a few questions about a few fixed DTDs.", "anchors": ["src/axl_dtd.c:axl_dtd_get_element", "src/axl_dtd.c:axl_dtd_element_is_toplevel", "src/axl_dtd.c:axl_dtd_item_list_get_node", "src/axl_dtd.c:axl_dtd_item_node_get_list", "src/axl_dtd.c:axl_dtd_get_attr_contraints"]}
{"id": "C73", "title": "Printed texts are complete and stay inside their buffers", "statement": "axl_stream_printf_buffer writes the part of the text that fits into the buffer and its end, touches nothing behind it, returns the bytes written and reports the bytes needed; axl_stream_strdup_printf, axl_stream_strdup_printf_len and axl_stream_printf_len give the whole text and its length for any format and arguments; an axlError that was reported is seen by axl_error_was_ok, with its code and its whole text, including the place of the error.", "quantifier": "every format made of characters and %s, %d, %c, %%, any arguments of these types, any size of buffer", "why_tests_cant": "The texts that are printed have no bound, and whether they end inside a buffer depends on the arguments; the variant for systems without vasprintf is compiled on other machines than the tests.", "anchors": ["src/axl_stream.c:axl_stream_printf_buffer", "src/axl_stream.c:axl_stream_strdup_printfv", "src/axl_stream.c:axl_stream_strdup_printf_len", "src/axl_error.c:axl_error_new", "src/axl_error.c:axl_error_report"]}
{"id": "C74", "title": "A DTD file is read safely and says what its bytes say", "statement": "axl_dtd_parse_from_file never reads or writes outside its buffer whatever the bytes of the file, returns if no parameter entity or recursive element is used, and loads the same DTD, or refuses it, as axl_dtd_parse does for the same bytes in memory.", "quantifier": "every file, of any size and any bytes, with the buffer refilled at any place of it", "why_tests_cant": "Where the buffer ends inside the file depends on its size and content; no set of files can show every place at which a declaration is cut by the end of the buffer.", "anchors": ["src/axl_dtd.c:axl_dtd_parse_from_file", "src/axl_dtd.c:__axl_dtd_parse_common", "src/axl_stream.c:axl_stream_prebuffer", "src/axl_stream.c:axl_stream_push"]}
{"id": "C75", "title": "The options a program sees are those on its command line", "statement": "After exarg_parse returns, exarg_is_defined, exarg_get_string and exarg_get_params answer exactly what the arguments say: each option given once, its value the argument that follows it, everything else a free argument, what it requires present and what it excludes absent; every other command line ends the program with the status of failure, unless it asks for help.", "quantifier": "every set of options a program installs, with any dependencies and exclusions, and every list of arguments with any bytes", "why_tests_cant": "Command lines are unbounded lists of arbitrary strings, and options, values, free arguments and the two styles interact; tests only try some.", "anchors": ["knife/exarg.c:exarg_parse", "knife/exarg.c:exarg_is_argument", "knife/exarg.c:exarg_lookup_node", "knife/exarg.c:__exarg_parse_check_depends", "knife/exarg.c:exarg_install_arg"]}
{"id": "C76", "title": "axl-knife does what its options say and its status tells it", "statement": "The tool axl-knife carries out the action its options ask for on the files they name, skips it with --ifnewer exactly if the output is not older than the input, refuses any other command line without touching a file, never faults, and its exit status tells whether the action was done.", "quantifier": "every command line and every state of the files (existence, times, content that loads or not, outputs that can be written or not)", "why_tests_cant": "The combinations of options and states of files are unbounded; the project has no test of the tool.", "anchors": ["knife/axl-knife.c:main", "knife/axl-knife.c:axl_knife_htmlize", "knife/axl-knife.c:axl_knife_dtd_to_c", "knife/axl-knife.c:axl_knife_check_if_newer"]}
