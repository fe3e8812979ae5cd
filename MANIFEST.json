{
 "claims": [
  {
   "property": "C01",
   "status": "proved",
   "theorems": [
    "C01_list_is_sequence"
   ],
   "note": "Heap-level model with next/previous links and cell pool; refinement to the ideal sequence for every history and comparison function."
  },
  {
   "property": "C02",
   "status": "partial",
   "theorems": [
    "C02_add_keeps_order",
    "C02_add_equal_noop",
    "C02_equal_int_is_order",
    "C02_order_string_is_order",
    "C02_equal_int_small_to_big_refuted"
   ],
   "note": "Ordering, completeness and uniqueness proved for every total-order comparison; the documented small-to-big order of axl_list_equal_int is refuted (it is big-to-small)."
  },
  {
   "property": "C03",
   "status": "partial",
   "theorems": [
    "C03_exists_iff_live_partial",
    "C03_exists_equal_string_refuted",
    "C03_exists_equal_ptr_refuted",
    "C03_exists_zero_refuted"
   ],
   "note": "Proved for total orders and non-NULL probes; refuted for axl_list_equal_string, axl_list_equal_ptr and the NULL/0 probe."
  },
  {
   "property": "C04",
   "status": "partial",
   "theorems": [
    "C04_cells_never_shared",
    "C04_cells_never_lost_positional",
    "C04_cells_never_lost_partial",
    "C04_free_releases_all",
    "C04_cells_never_lost_refuted"
   ],
   "note": "No sharing proved for all histories; no loss proved when no present element is re-added; refuted otherwise (axl_list_add of a present element leaks a cell)."
  },
  {
   "property": "C05",
   "status": "proved",
   "theorems": [
    "C05_cursor_enumerates",
    "C05_cursor_enumerates_backwards",
    "C05_cursor_remove",
    "C05_cursor_filter"
   ],
   "note": "Forward/backward enumeration, removal under the cursor, filtering loop."
  },
  {
   "property": "C06",
   "status": "partial",
   "theorems": [
    "C06_copy_ordered_partial",
    "C06_copy_always_1_partial",
    "C06_copy_refuted",
    "C06_copy_drops_refuted"
   ],
   "note": "Proved for ordered lists and for axl_list_always_return_1; refuted in general (reversal, lost duplicates)."
  },
  {
   "property": "C07",
   "status": "proved",
   "theorems": [
    "C07_stack_lifo",
    "C07_stack_free"
   ],
   "note": "Every history of pushes, pops and peeks refines the ideal LIFO; free destroys each item once."
  },
  {
   "property": "C08",
   "status": "proved",
   "theorems": [
    "C08_binary_stack_lifo",
    "C08_binary_stack_free"
   ],
   "note": "Bit-level model of the packed bytes; refines the ideal boolean stack."
  },
  {
   "property": "C09",
   "status": "partial",
   "theorems": [
    "C09_hash_is_finite_map",
    "C09_string_keys",
    "C09_string_keys_are_bytes",
    "C09_int_keys",
    "C09_null_string_key_refuted"
   ],
   "note": "Every history refines a finite map for any hash function and any equality consistent with it; string and int keys instantiated; a NULL string key is refuted."
  },
  {
   "property": "C10",
   "status": "partial",
   "theorems": [
    "C10_destroyed_exactly_once",
    "C10_null_value_refuted"
   ],
   "note": "Each stored key/value destroyed exactly once over every history; refuted for values stored as NULL."
  },
  {
   "property": "C11",
   "status": "partial",
   "theorems": [
    "C11_foreach_visits_once",
    "C11_cursor_visits_once",
    "C11_cursor_filter_partial",
    "C11_cursor_remove_revisits_refuted",
    "C11_cursor_last_refuted",
    "C11_cursor_first_stale_refuted"
   ],
   "note": "foreach and cursor visit each entry once; filtering loop with removal proved under conditions; refutations for cursor_remove revisits, cursor_last and a stale cursor_first."
  },
  {
   "property": "C12",
   "status": "proved",
   "theorems": [
    "C12_copy_equal"
   ],
   "note": "Copy has the same map and is independent."
  },
  {
   "property": "C13",
   "status": "partial",
   "theorems": [
    "C13_item_factory_partial",
    "C13_large_items_refuted",
    "C13_string_factory"
   ],
   "note": "Items of 1..512 bytes over every get/release history; every string factory history; refuted for item types larger than 512 bytes."
  },
  {
   "property": "C14",
   "status": "proved",
   "theorems": [
    "C14_trim"
   ],
   "note": "Buffer-level model (in-place move, terminator write, reported count); every string."
  },
  {
   "property": "C15",
   "status": "proved",
   "theorems": [
    "C15_split",
    "C15_pieces_unique",
    "C15_split_join",
    "C15_split_empty",
    "C15_join",
    "C15_clean_split"
   ],
   "note": "Split, join, uniqueness of the cut and clean_split; every string and non-empty separator."
  },
  {
   "property": "C16",
   "status": "proved",
   "theorems": [
    "C16_replace",
    "C16_concat"
   ],
   "note": "Replacement and concatenation: the text, the size returned and the size of the block."
  },
  {
   "property": "C17",
   "status": "partial",
   "theorems": [
    "C17_axl_cmp",
    "C17_axl_casecmp",
    "C17_axl_memcmp",
    "C17_list_equal_string_partial",
    "C17_list_equal_string_empty_refuted",
    "C17_list_equal_string_empty_differs_refuted"
   ],
   "note": "axl_cmp, axl_casecmp, axl_memcmp proved to decide equality; axl_list_equal_string is refuted for empty strings and proved otherwise."
  },
  {
   "property": "C18",
   "status": "partial",
   "theorems": [
    "C18_remove_first",
    "C18_remove_all_partial",
    "C18_remove_all_underrun_refuted",
    "C18_remove_all_excess_refuted"
   ],
   "note": "First-occurrence removal proved; removal of all proved when no proper beginning of the pattern ends the string; refuted in general (reads before the string, removes too much)."
  },
  {
   "property": "C19",
   "status": "proved",
   "theorems": [
    "C19_escape_translate",
    "C19_attribute_value"
   ],
   "note": "Full statement: every NUL-free text comes back from escape-then-translate, both for content and for attribute values, and the stored text holds none of the five special bytes outside entity references."
  },
  {
   "property": "C20",
   "status": "partial",
   "theorems": [
    "C20_escape_exact_partial",
    "C20_set_content_partial",
    "C20_set_attribute",
    "C20_overflow_refuted",
    "C20_unterminated_refuted"
   ],
   "note": "For every content and every size that does not end inside a ]]> sequence: exact allocation, no access outside. Sizes ending inside ]]> are refuted twice: the copy overruns its block, or leaves it without terminator so that reading it back runs past the end."
  },
  {
   "property": "C21",
   "status": "partial",
   "theorems": [
    "C21_attributes_map_partial",
    "C21_set_unescaped",
    "C21_shrink_refuted",
    "C21_name_refuted"
   ],
   "note": "Every history, under: names without special characters, and no removal from eleven to ten attributes when values hold special characters. Both restrictions are shown necessary by refutations (values escaped a second time on shrinking; names stored escaped but looked up as given)."
  },
  {
   "property": "C22",
   "status": "partial",
   "theorems": [
    "C22_dump_size",
    "C22_negative_width_refuted",
    "C22_null_refuted"
   ],
   "note": "Exact text and size proved for every tree whose strings are present, plain and pretty, every width >= 0; refuted for negative widths, NULL values and empty comments."
  },
  {
   "property": "C23",
   "status": "partial",
   "theorems": [
    "C23_round_trip_partial",
    "C23_pretty_partial",
    "C23_spaced_partial",
    "C23_refuted"
   ],
   "note": "Round trip proved up to comment padding for every writable tree (plain; pretty when unmixed), exact when comments are spaced; refuted in general (padding, white space after comments, adjacent and blank texts, references, document-level PIs)."
  },
  {
   "property": "C24",
   "status": "partial",
   "theorems": [
    "C24_terminates",
    "C24_reads_inside_partial",
    "C24_standalone_refuted"
   ],
   "note": "Termination for every buffer; memory safety for every buffer whose standalone values have at least two bytes; refuted below that (memcmp over-read)."
  },
  {
   "property": "C25",
   "status": "partial",
   "theorems": [
    "C25_nesting_partial",
    "C25_refuted"
   ],
   "note": "Proved for every accepted text: it splits into head, one element with properly nested and equally named tags whose items are the document tree, and a rest. Refuted: text after the root, an empty root name and a root without '<' are accepted."
  },
  {
   "property": "C26",
   "status": "partial",
   "theorems": [
    "C26_distinct",
    "C26_values_partial",
    "C26_refuted"
   ],
   "note": "Distinct names proved for every accepted text. Values: proved when every quote is closed; refuted by <a b='/> (attribute without value)."
  },
  {
   "property": "C27",
   "status": "partial",
   "theorems": [
    "C27_again_partial",
    "C27_null_refuted"
   ],
   "note": "Proved for every well-formed text whose PIs have content; refuted for accepted inputs with an unterminated attribute value or <?pi?>."
  },
  {
   "property": "C28",
   "status": "partial",
   "theorems": [
    "C28_inserted_partial",
    "C28_refuted"
   ],
   "note": "Proved for insertion at any place of any writable tree; refuted for the empty comment and for white space after the comment."
  },
  {
   "property": "C29",
   "status": "proved",
   "theorems": [
    "C29_everything_once",
    "C29_document_order",
    "C29_level_order"
   ],
   "note": "Trees built by any sequence of the edits of C32; handlers decide from all their calls and may remove the visited element (without dealloc). Level order is the relation wide."
  },
  {
   "property": "C30",
   "status": "partial",
   "theorems": [
    "C30_sound",
    "C30_complete_partial",
    "C30_refuted",
    "C30_empty_refuted",
    "C30_star",
    "C30_star_last",
    "C30_star_refuted"
   ],
   "note": "Sound for every path of plain names; complete when no two siblings share a name. Refuted in general: axl_doc_get does not backtrack over equally named siblings, and stops at an empty name."
  },
  {
   "property": "C31",
   "status": "partial",
   "theorems": [
    "C31_node_equivalence",
    "C31_node_attributes",
    "C31_decides_partial",
    "C31_equivalence_partial",
    "C31_copy_partial",
    "C31_copy_flags_partial",
    "C31_parsed_partial",
    "C31_refuted",
    "C31_reflexive_refuted",
    "C31_copy_refuted"
   ],
   "note": "axl_node_are_equal is an equivalence on all nodes; the comparison of documents decides sameness of the trees and is an equivalence when every processing instruction has a content; copies are equal; parsed documents are covered. Refuted: axl_doc_are_equal ignores white space around texts, a processing instruction without content makes a document unequal to itself, copying an entity reference."
  },
  {
   "property": "C32",
   "status": "partial",
   "theorems": [
    "C32_links_partial",
    "C32_refuted",
    "C32_replace_refuted",
    "C32_parent_refuted",
    "C32_twice_refuted"
   ],
   "note": "For every history of node and item insertions, removals, replacements and transfers the links are exactly those of a list-based family of trees (forward walk, backward walk, parents, element neighbours). Missing: axl_item_remove/axl_item_replace of a first or last item that is not an element, where it is false (C32_refuted, C32_replace_refuted). C32_parent_refuted and C32_twice_refuted show the stale parent of removed elements. Memory release (dealloc = true) is in C52; the document root is not modelled."
  },
  {
   "property": "C33",
   "status": "partial",
   "theorems": [
    "C33_children_partial",
    "C33_document_partial",
    "C33_all_elements",
    "C33_refuted",
    "C33_plus_refuted",
    "C33_choice_refuted",
    "C33_skipped_refuted"
   ],
   "note": "Proved for the class safe_top of content models (C33_children_partial) and for whole documents (C33_document_partial; with C33_all_elements every element when nothing is declared ANY). False in general: four refutations with models such as (a*,b) accepting a. The content model is taken as given here; C50_validates_partial joins it with the loading of the DTD text."
  },
  {
   "property": "C34",
   "status": "partial",
   "theorems": [
    "C34_children_partial",
    "C34_document_partial",
    "C34_exact_partial",
    "C34_refuted",
    "C34_empty_refuted",
    "C34_root_refuted",
    "C34_nested_refuted"
   ],
   "note": "Proved for the class det_top (one name of look-ahead, repetitions that match something) and for whole documents; C34_exact_partial gives acceptance iff validity. False in general: refutations such as ((a,b)?,c) rejecting c."
  },
  {
   "property": "C35",
   "status": "partial",
   "theorems": [
    "C35_children_partial",
    "C35_document_partial",
    "C35_refuted",
    "C35_any_refuted"
   ],
   "note": "Termination proved for models in which every repetition must take a child and documents whose last visited element is not declared ANY; refuted for (a?)* on an empty element and for an element declared ANY at the end (the loop never ends, for any fuel)."
  },
  {
   "property": "C36",
   "status": "partial",
   "theorems": [
    "C36_root_search_partial",
    "C36_root_is_top",
    "C36_refuted"
   ],
   "note": "The search for the root ends when the declarations are acyclic, and its result is mentioned by no declaration; refuted for <!ELEMENT a (a?)>. The loops of axl_dtd_parse that read the text are in C51."
  },
  {
   "property": "C37",
   "status": "partial",
   "theorems": [
    "C37_distinct_ids_partial",
    "C37_references_partial",
    "C37_refuted",
    "C37_dangling_refuted",
    "C37_any_refuted"
   ],
   "note": "Distinct IDs proved for every accepted document, references proved when no implied ID is absent; refuted when an implied ID is absent (both directions) and below elements declared ANY."
  },
  {
   "property": "C38",
   "status": "partial",
   "theorems": [
    "C38_attributes_partial",
    "C38_any_refuted"
   ],
   "note": "Proved for every element looked at, which are all the elements when nothing is declared ANY; refuted below ANY."
  },
  {
   "property": "C39",
   "status": "partial",
   "theorems": [
    "C39_validates_partial",
    "C39_resolves_partial",
    "C39_parsed_partial",
    "C39_undeclared_refuted",
    "C39_xml_refuted",
    "C39_twice_refuted",
    "C39_escaped_refuted"
   ],
   "note": "Validation accepts exactly the documents whose prefixes are declared in scope, and comparison and searches resolve to the nearest declaration, for trees without the prefix xml and without attributes that only look like declarations. Refuted for those: xmlnsfoo declares the prefix oo, xml:lang is rejected, xmlnsXp clashes with xmlns:p; and namespace names are compared in their escaped form."
  },
  {
   "property": "C40",
   "status": "partial",
   "theorems": [
    "C40_accepts_partial",
    "C40_patterns_partial",
    "C40_index_partial",
    "C40_total",
    "C40_string",
    "C40_refuted",
    "C40_surrogate_refuted",
    "C40_beyond_refuted"
   ],
   "note": "The check accepts exactly the rows of UTF-8 byte patterns, reports the first place where no pattern begins, reads only the content, and accepts every well-formed text. It is not exact: overlong forms, surrogates and values beyond U+10FFFF pass (C40_refuted, C40_surrogate_refuted, C40_beyond_refuted)."
  },
  {
   "property": "C41",
   "status": "partial",
   "theorems": [
    "C41_call",
    "C41_steps",
    "C41_tables_partial",
    "C41_refuted"
   ],
   "note": "Proved for every table, input and sequence of output buffers; for the ten shipped tables the output is the UTF-8 form of the code points (listed independently) and identifies the text, for bytes that belong to the encoding. For other bytes false: they all become NUL (C41_refuted)."
  },
  {
   "property": "C42",
   "status": "partial",
   "theorems": [
    "C42_small_partial",
    "C42_regular_partial",
    "C42_text_refuted",
    "C42_rejected_refuted",
    "C42_swallowed_refuted"
   ],
   "note": "Proved: doc_parse_file content = doc_parse content (same tree or same rejection) for every content that fits in the 8192-byte buffer and has no text starting after white space in its last bytes (C42_small_partial), and for every content of any size that is regular: it ends with white space, has no comment, CDATA section or PI other than a leading XML declaration, and white space after a tag is followed by a tag or nothing (C42_regular_partial). The full statement is false of the code: C42_text_refuted (leading white space of text is lost from a file), C42_rejected_refuted (accepted from memory, rejected from a file), C42_swallowed_refuted (a CDATA end across the buffer end swallows the elements after it)."
  },
  {
   "property": "C43",
   "status": "partial",
   "theorems": [
    "C43_default_partial",
    "C43_refuted"
   ],
   "note": "Proved for documents without xml:space; refuted in both directions with it."
  },
  {
   "property": "C44",
   "status": "proved",
   "theorems": [
    "C44_entity_lookup"
   ],
   "note": "For the list of declarations of the DTD in order; C50_loads_partial gives the list loaded from the text."
  },
  {
   "property": "C45",
   "status": "partial",
   "theorems": [
    "C45_texts_read_back_partial",
    "C45_cdata_end_refuted",
    "C45_trimmed_text"
   ],
   "note": "Texts set and read back byte for byte, through every reader; refuted for CDATA text holding the ]]> sequence, which comes back with the terminator escaped."
  },
  {
   "property": "C46",
   "status": "partial",
   "theorems": [
    "C46_last_stored",
    "C46_nearest_partial",
    "C46_refuted"
   ],
   "note": "Every history of tree edits and annotations refines a map per node; lookup in the parents finds the nearest value. Refuted: a removed node still inherits from its old parent."
  },
  {
   "property": "C47",
   "status": "proved",
   "theorems": [
    "C47_children",
    "C47_siblings",
    "C47_find",
    "C47_below"
   ],
   "note": "Trees built by any sequence of the edits of C32; the namespace variants are not covered here."
  },
  {
   "property": "C48",
   "status": "partial",
   "theorems": [
    "C48_enumeration",
    "C48_has_next_refuted"
   ],
   "note": "Full enumeration claim proved for every history; has_next on an element without attributes is refuted (NULL dereference)."
  },
  {
   "property": "C49",
   "status": "partial",
   "theorems": [
    "C49_accepted",
    "C49_refuted"
   ],
   "note": "Accepted with its tree for every text of the grammar in XmlSpec.v; spaces around = and before the > of a closing tag, and a leading PI, are refuted."
  },
  {
   "property": "C50",
   "status": "partial",
   "theorems": [
    "C50_loads_partial",
    "C50_mixed_content",
    "C50_validates_partial",
    "C50_choice_refuted",
    "C50_unended_refuted",
    "C50_external_refuted",
    "C50_kept",
    "C50_twice",
    "C50_clash_partial",
    "C50_clash_refuted",
    "C50_reference_partial",
    "C50_reference_start_refuted",
    "C50_reference_place_refuted"
   ],
   "note": "Proved for declarations whose groups show their kind (a name before a separator, or one member); ((a,b)|(c,d)) is loaded as a sequence (C50_choice_refuted), a text ending inside a declaration is accepted and SYSTEM/PUBLIC entities are refused. For every byte string, what loads declares no element twice, has one place per element for its attributes, at most one ID attribute (not fixed), defaults inside enumerations, an ID if it has IDREFs, and a root it declares (C50_kept). A second declaration and mixed separators after names are refused (C50_twice, C50_clash_partial); (a,(b)|c) is accepted (C50_clash_refuted). A reference to a parameter entity in the place of the type of an attribute is read as its value (C50_reference_partial); values that start with white space or with another reference are refused there (C50_reference_start_refuted) and references in other places are not replaced (C50_reference_place_refuted)."
  },
  {
   "property": "C51",
   "status": "partial",
   "theorems": [
    "C51_no_fault",
    "C51_ends_partial",
    "C51_entity_refuted",
    "C51_recursive_refuted",
    "C51_references_partial"
   ],
   "note": "No out-of-bounds access for any bytes and any fuel. Ends for texts without % whose declarations are acyclic (C51_ends_partial), and for texts with parameter entities if none refers to itself, directly or through others, and their values hold no declarations (C51_references_partial). A parameter entity naming itself (C51_entity_refuted) and an element that may contain itself (C51_recursive_refuted) are loaded for ever."
  },
  {
   "property": "C52",
   "status": "partial",
   "theorems": [
    "C52_released_partial",
    "C52_nothing_left_partial",
    "C52_text_refuted",
    "C52_lost_refuted",
    "C52_old_parent_refuted"
   ],
   "note": "For every history of insertions, moves, removals, replacements and releases: nothing released is used or released again, the remaining trees are the expected ones and the number of items in memory is accounted for. Missing: axl_item_remove/axl_item_replace with dealloc of a first or last text (use after free, C52_text_refuted); axl_node_replace by a node that was in a tree loses its item (C52_lost_refuted); axl_node_remove of a node whose former parent was released writes in it (C52_old_parent_refuted). Blocks that belong to one node or item only (name, attributes, contents) and document factories are not in the model."
  },
  {
   "property": "C53",
   "status": "partial",
   "theorems": [
    "C53_same_partial",
    "C53_self_partial",
    "C53_layout_partial",
    "C53_alike_partial",
    "C53_decides_partial",
    "C53_safe_partial",
    "C53_names_refuted",
    "C53_nested_refuted",
    "C53_default_refuted",
    "C53_fault_refuted",
    "C53_self_refuted"
   ],
   "note": "Same rules compare equal if no entity lacks a value (C53_same_partial, C53_self_partial), in any layout of the text (C53_layout_partial, #PCDATA aside: (#PCDATA) and (#PCDATA)* differ). What compares equal has the same elements and kinds, entities, attributes and types (C53_alike_partial), and C53_decides_partial gives exactly what is compared. The converse is false: names in a content, nested groups and default values are not looked at (C53_names_refuted, C53_nested_refuted, C53_default_refuted); (a?,b?) against (a?) dereferences NULL while the other way round they are equal (C53_fault_refuted); an entity without a value makes a DTD differ from itself (C53_self_refuted)."
  },
  {
   "property": "C54",
   "status": "partial",
   "theorems": [
    "C54_node_partial",
    "C54_doc",
    "C54_list_refuted"
   ],
   "note": "Proved for nodes (histories that fit C32) and documents. The list of a node has axl_pi_free as destroy function, so that releasing it as documented releases the instructions the node still has: use after free and double release (C54_list_refuted)."
  },
  {
   "property": "C55",
   "status": "partial",
   "theorems": [
    "C55_accepted_partial",
    "C55_valid_partial",
    "C55_decides_partial",
    "C55_text_refuted",
    "C55_empty_refuted"
   ],
   "note": "The whole way from both texts to the answer. C55_accepted_partial: what is accepted has declared elements, the declared children and attributes, distinct identifiers. C55_valid_partial: what is valid is accepted. C55_decides_partial: for DTDs whose specifications are handled well (safe, deterministic, ending) and documents that leave out no identifier, the three calls end and the answer is exactly whether the document is as declared. Missing: the specifications of C33, C34, C35, C50, and ANY. False: text between the children of an element content is accepted (C55_text_refuted), so are comments in EMPTY elements and attributes where none are declared (C55_empty_refuted)."
  },
  {
   "property": "C56",
   "status": "partial",
   "theorems": [
    "C56_tree",
    "C56_around",
    "C56_paths",
    "C56_visits",
    "C56_find",
    "C56_edits",
    "C56_text"
   ],
   "note": "The parser that links nodes agrees with the parser on values for every text (including refusal); the links show the tree, every node is in it once, neighbours and parents are right; paths are sound, and complete when siblings have different names (C30_refuted shows why); the heap is one that allowed edits could have built, so the theorems about edits, release and search apply. Missing: an encoding handler (Babel) in the stream; paths are complete only without equal siblings."
  },
  {
   "property": "C57",
   "status": "partial",
   "theorems": [
    "C57_converted_partial",
    "C57_lost",
    "C57_converted_refuted",
    "C57_ascii",
    "C57_undeclared",
    "C57_utf8",
    "C57_unknown",
    "C57_validity_refuted",
    "C57_space_refuted",
    "C57_file_refuted"
   ],
   "note": "For documents in memory. Converted documents are read right if their UTF-8 form needs no more room than the text has (C57_converted_partial); otherwise they are refused (C57_lost, C57_converted_refuted): a document that ends with its root and has a character outside ASCII in it cannot be read. ASCII, undeclared, UTF-8 and unknown encodings are covered exactly (C57_ascii, C57_undeclared, C57_utf8, C57_unknown); that invalid or unsupported texts are refused is false (C57_validity_refuted), as is that white space may come first (C57_space_refuted) and that files are read like texts (C57_file_refuted). Missing: the conversion of files block by block, which runs again on every read."
  },
  {
   "property": "C58",
   "status": "partial",
   "theorems": [
    "C58_cut_partial",
    "C58_cut_refuted",
    "C58_rest_refuted"
   ],
   "note": "Exactly the beginnings that contain the whole document are accepted if no attribute value and no name of an encoding contains '>' (C58_cut_partial); with '>' in an attribute value it is false (C58_cut_refuted, C58_rest_refuted), because an attribute value that does not end is dropped without an error."
  },
  {
   "property": "C59",
   "status": "partial",
   "theorems": [
    "C59_owned_partial",
    "C59_released_partial",
    "C59_copy_partial",
    "C59_name_refuted",
    "C59_free_full_refuted",
    "C59_replace_refuted",
    "C59_moved_refuted"
   ],
   "note": "Proved for every sequence of calls that respects four conditions, each of them shown necessary by a refutation: axl_node_set_name_ref is not called on a node that still has the name of the parser (leak), axl_node_free_full is only called on nodes without content (its second argument is ignored: leak), a node that replaces another has no item from malloc of its own (leak), and a document is released after every tree that depends on its pools (use after free). A tree that is the root of a document is taken from it before it is given elsewhere. Missing: annotations, axl_node_parse (a node that owns its document), comments and instructions outside the root, the blocks inside a hash are one block."
  },
  {
   "property": "C60",
   "status": "partial",
   "theorems": [
    "C60_agrees",
    "C60_agrees_file",
    "C60_returns_file_partial",
    "C60_error",
    "C60_error_file",
    "C60_place",
    "C60_place_file_refuted",
    "C60_place_file",
    "C60_released_partial",
    "C60_released_file_partial",
    "C60_lost_refuted"
   ],
   "note": "Agreement with the parser of C24 and the error are proved in full for texts in memory and files, its place for texts in memory; for files the size and byte are those of the part in the buffer (C60_place_file_refuted), which is a part of the file, and what the error quotes is what the file has around that byte and behind it (C60_place_file). Every file is parsed to a result (C60_returns_file_partial), but for the short standalone= values of C71. The release is partial: the block of a value read before is lost when an element has no name (C60_lost_refuted: axl_stream_nullify drops it, axl_doc.c:823-826); proved: at most that one block, only with that error. The document is one group of blocks here (C59 looks inside). Other encodings (Babel) are not installed in this model."
  },
  {
   "property": "C61",
   "status": "partial",
   "theorems": [
    "C61_agrees",
    "C61_agrees_file",
    "C61_file_no_fault",
    "C61_error",
    "C61_error_file",
    "C61_place",
    "C61_place_file",
    "C61_place_file_refuted",
    "C61_released_partial",
    "C61_released_file_partial",
    "C61_lost_refuted",
    "C61_twice_refuted"
   ],
   "note": "Agreement with the loader of C50/C51, for files too, the error and its place are proved in full, and that loading a file never faults, also while it tells an error. The release is partial because it is false: the element is lost exactly when the error is about its content or it is declared twice (C61_lost_refuted, C61_twice_refuted); proved: after those errors and only after those something is left. With parameter entity references the place is one of the text with the values put in. Of a file the place is one of the part in the buffer, and what is quoted is what the file has there (C61_place_file)."
  },
  {
   "property": "C62",
   "status": "partial",
   "theorems": [
    "C62_agrees",
    "C62_released",
    "C62_unwanted_partial",
    "C62_true_partial",
    "C62_report_partial",
    "C62_silent_refuted",
    "C62_root_refuted",
    "C62_accepted_refuted",
    "C62_lost_refuted",
    "C62_unwanted_refuted",
    "C62_true_refuted",
    "C62_null_refuted"
   ],
   "note": "The verdict and the release of everything but the errors are proved in full. Truth is proved for documents whose last visited element is not declared ANY (C62_true_refuted otherwise). Exactly one error is proved for the content models of `speaks` and roots that are not EMPTY with content; outside of them a rejection can be silent (C62_silent_refuted, C62_root_refuted), an acceptance can set an error (C62_accepted_refuted), an error can be overwritten and lost (C62_lost_refuted), one can be made that nobody asked for (C62_unwanted_refuted), and the message about the root prints a NULL string (C62_null_refuted). Messages are their formats and arguments."
  },
  {
   "property": "C63",
   "status": "partial",
   "theorems": [
    "C63_saved_partial",
    "C63_plain_partial",
    "C63_pretty_partial",
    "C63_node_partial",
    "C63_large_refuted",
    "C63_blank_refuted",
    "C63_node_refuted",
    "C63_close_refuted"
   ],
   "note": "Saving is proved when what fwrite accepted reaches the file; the result of fclose is not looked at (C63_close_refuted). axl_node_dump_to_file writes the pretty layout (C63_node_refuted). Loading is proved for trees of C23 without > in values and texts and without white space at the start of texts: texts of up to 8192 bytes, and pretty dumps of elements and texts of any size; C63_large_refuted and C63_blank_refuted show why."
  },
  {
   "property": "C64",
   "status": "partial",
   "theorems": [
    "C64_delivered_partial",
    "C64_keeping_partial",
    "C64_single_partial",
    "C64_drained_partial",
    "C64_progress_partial",
    "C64_stopped",
    "C64_garbage_refuted",
    "C64_twice_refuted",
    "C64_lost_refuted"
   ],
   "note": "Proved for readers that do not ask for more with an empty window while the stream wants to grow its buffer (C64_delivered_partial), which includes all readers of files whose bytes are converted to one byte each, and if the uninitialised variable op_result is not 2. Without these it is false: content is delivered twice (C64_twice_refuted), parsing does not end for files of ASCII alone that declare ISO-8859-1 (C64_stopped, C64_garbage_refuted). The check of UTF-8 in blocks loses content without an error (C64_lost_refuted). That the parser is one of the readers covered is not proved."
  },
  {
   "property": "C65",
   "status": "partial",
   "theorems": [
    "C65_pieces",
    "C65_content",
    "C65_error_refuted",
    "C65_owned_partial",
    "C65_released_partial",
    "C65_child_refuted",
    "C65_lent_refuted"
   ],
   "note": "Texts: C65_pieces, C65_content; the error reference, documented as optional, is required (C65_error_refuted). Memory: proved if no node or holder that belongs to the document is outside the node when that is released (C65_owned_partial, C65_released_partial); otherwise it is false: a child taken out of such a node dies with it (C65_child_refuted), and so does a node of the program that was put into it for a while and taken out (C65_lent_refuted). The format of axl_node_parse is not modelled."
  },
  {
   "property": "C66",
   "status": "partial",
   "theorems": [
    "C66_reading",
    "C66_writing_partial",
    "C66_child_refuted",
    "C66_root_refuted",
    "C66_cursor_refuted",
    "C66_doc_refuted",
    "C66_twice_refuted",
    "C66_after_refuted",
    "C66_remove_refuted",
    "C66_replaced_refuted"
   ],
   "note": "Proved for every program that only reads (C66_reading). For programs that make and change documents it is proved under an explicit condition (C66_writing_partial) and false without it: a child or root is released with its parent or document although the program has its object (C66_child_refuted, C66_root_refuted), cursors and node.doc do not keep the document (C66_cursor_refuted, C66_doc_refuted), a child below a child is released twice (C66_twice_refuted), set_child_after on a node without parent (C66_after_refuted), and nodes removed without memory or roots that are replaced are never released (C66_remove_refuted, C66_replaced_refuted)."
  },
  {
   "property": "C67",
   "status": "partial",
   "theorems": [
    "C67_once",
    "C67_same_result",
    "C67_true_partial",
    "C67_never",
    "C67_xml_refuted",
    "C67_twice_refuted"
   ],
   "note": "That there is exactly one error, and that cursors are released, is proved for all trees (C67_once); that the error is true and the first, for documents that do not use the prefix xml nor attributes like xmlnsfoo (C67_true_partial), and false for these (C67_xml_refuted, C67_twice_refuted). The error about several default declarations is never reported (C67_never)."
  },
  {
   "property": "C68",
   "status": "partial",
   "theorems": [
    "C68_validated_partial",
    "C68_kept_partial",
    "C68_removed_refuted",
    "C68_stale_refuted",
    "C68_unseen_refuted",
    "C68_eleven_refuted"
   ],
   "note": "True as long as no declaration is removed, set since the last validation, and nothing is removed from an element with eleven attributes (C68_validated_partial, C68_kept_partial); each of these is necessary: a removed declaration leaves a dangling or a stale table (C68_removed_refuted, C68_stale_refuted), a new one is not seen (C68_unseen_refuted), and going from eleven to ten attributes makes copies of all strings and releases those the tables point to (C68_eleven_refuted)."
  },
  {
   "property": "C69",
   "status": "partial",
   "theorems": [
    "C69_header_partial",
    "C69_same_partial",
    "C69_loads_partial",
    "C69_backslash_refuted",
    "C69_quote_refuted",
    "C69_line_refuted",
    "C69_name_refuted",
    "C69_lost_byte"
   ],
   "note": "True for texts without backslash, carriage return and NUL that fit in the buffer or end with a line end, in files whose name makes an identifier (C69_header_partial); then also the declarations are the same and are loaded, if no value has quotes, tabulators or line ends (C69_same_partial, C69_loads_partial). Each is necessary: C69_backslash_refuted, C69_quote_refuted, C69_line_refuted, C69_name_refuted, and C69_lost_byte for the last byte of a last line that goes beyond the buffer."
  },
  {
   "property": "C70",
   "status": "partial",
   "theorems": [
    "C70_shows_partial",
    "C70_again_partial",
    "C70_one_text",
    "C70_empty_refuted",
    "C70_reference_refuted",
    "C70_quote_refuted",
    "C70_instruction_refuted",
    "C70_bracket_refuted",
    "C70_line_refuted"
   ],
   "note": "True for documents without processing instructions, ampersands, quotes and brackets in values, and empty elements without attributes (C70_shows_partial, from the text and back through the parser C70_again_partial). Each is necessary: C70_empty_refuted, C70_reference_refuted, C70_quote_refuted, C70_bracket_refuted, C70_instruction_refuted; and the white space around texts does change (C70_line_refuted)."
  },
  {
   "property": "C71",
   "status": "partial",
   "theorems": [
    "C71_ends",
    "C71_inside_partial",
    "C71_standalone_refuted",
    "C71_linked_partial"
   ],
   "note": "Termination is proved for every content (C71_ends); the accesses for every content whose standalone= values have at least two bytes (C71_inside_partial), refuted below that (C71_standalone_refuted), as for texts in memory (C24). Also for the parser that links the nodes (C71_linked_partial). Missing: files in other encodings (Babel)."
  },
  {
   "property": "C72",
   "status": "partial",
   "theorems": [
    "C72_content_partial",
    "C72_no_doubt",
    "C72_toplevel",
    "C72_answers",
    "C72_constraints_partial",
    "C72_constraints_refuted",
    "C72_value_refuted"
   ],
   "note": "Elements, top level and root in full, from the text to the answers; contents where the loader keeps them as written (C50); what the answers say determines the content (C72_no_doubt). Refuted: the number of attributes of an element without an attribute list dereferences NULL instead of being 0 (C72_constraints_refuted); the value of a group is a text, not NULL (C72_value_refuted)."
  },
  {
   "property": "C73",
   "status": "partial",
   "theorems": [
    "C73_buffer",
    "C73_no_place_refuted",
    "C73_length",
    "C73_new",
    "C73_new_length",
    "C73_portable_partial",
    "C73_portable_refuted",
    "C73_numbers",
    "C73_report",
    "C73_place",
    "C73_silent_refuted"
   ],
   "note": "The C library's vsnprintf, vasprintf and va_list are modelled after C11 for these conversions. Refuted: without AXL_HAVE_VASPRINTF axl_stream_strdup_printf reads its va_list twice (C73_portable_refuted); a buffer of size 0 gives -1 (C73_no_place_refuted); an error reported with a NULL format is not seen (C73_silent_refuted). Missing: flags, width, precision and other conversions, Windows, failing allocations."
  },
  {
   "property": "C74",
   "status": "partial",
   "theorems": [
    "C74_no_fault",
    "C74_ends_partial",
    "C74_same_partial",
    "C74_loads_partial"
   ],
   "note": "C74_no_fault holds for every file. Missing: termination with parameter entities; for the agreement with memory, files with comments or a percent sign and files that do not end with white space."
  },
  {
   "property": "C75",
   "status": "partial",
   "theorems": [
    "C75_reads",
    "C75_says_one",
    "C75_numbers",
    "C75_negative_refuted",
    "C75_accepts",
    "C75_ends",
    "C75_exclusion_refuted",
    "C75_dependency_refuted",
    "C75_relations",
    "C75_distinct_partial",
    "C75_conflict_refuted",
    "C75_hidden_refuted",
    "C75_help_text"
   ],
   "note": "C75_reads, C75_accepts and C75_ends hold for every program and command line. False: options that exclude each other are only reported (C75_exclusion_refuted), after which dependencies are not checked (C75_dependency_refuted); options with the same name can be installed if one is the short name of the later one (C75_conflict_refuted, else C75_distinct_partial); names beginning with help, ? or usage cannot be given (C75_hidden_refuted), nor negative numbers of one digit (C75_negative_refuted). Of the help only the layout of a text is covered (C75_help_text)."
  },
  {
   "property": "C76",
   "status": "partial",
   "theorems": [
    "C76_does_partial",
    "C76_runs",
    "C76_does_one",
    "C76_exclusion_refuted",
    "C76_status_refuted"
   ],
   "note": "Proved for every command line that does not give --htmlize and --dtd-to-c together (C76_does_partial, C76_runs); with both, a document that was not loaded is used (C76_exclusion_refuted). The status is 0 although the document checked is wrong (C76_status_refuted)."
  }
 ]
}