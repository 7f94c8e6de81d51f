{
 "claims": [
  {
   "property": "C01",
   "status": "proved",
   "theorems": [
    "C01_element_content",
    "C01_text",
    "C01_attribute",
    "C01_delimited",
    "C01_comment",
    "C01_key",
    "C01_cargo",
    "C01_write_string",
    "C01_any_writer"
   ],
   "note": "Text, attribute and delimited values, comments, ctx.Data keys, cargo and WriteString; also for arbitrary writers."
  },
  {
   "property": "C02",
   "status": "proved",
   "theorems": [
    "C02_decode",
    "C02_injective",
    "C02_concat"
   ],
   "note": "Decoding, injectivity and concatenation for every byte string."
  },
  {
   "property": "C03",
   "status": "proved",
   "theorems": [
    "C03_bool",
    "C03_bytes",
    "C03_int",
    "C03_uint",
    "C03_stringer",
    "C03_func",
    "C03_func_nil",
    "C03_nothing"
   ],
   "note": "One theorem per kind of value; floats carry the text of strconv.FormatFloat as part of the value (library code)."
  },
  {
   "property": "C04",
   "status": "proved",
   "theorems": [
    "C04_key",
    "C04_key_attribute",
    "C04_cargo",
    "C04_absent",
    "C04_late"
   ],
   "note": "Key, cargo, absent key and late binding, for every world, state and context."
  },
  {
   "property": "C05",
   "status": "proved",
   "theorems": [
    "C05_element",
    "C05_plain_argument"
   ],
   "note": "Page equation for every argument list, context, state and map order (healthy writer, Imperative functions that return nil)."
  },
  {
   "property": "C06",
   "status": "proved",
   "theorems": [
    "C06_roundtrip",
    "C06_document",
    "C06_nested",
    "C06_any_template",
    "C06_key_safe",
    "C06_text_safe",
    "C06_attribute_safe",
    "C06_element_safe"
   ],
   "note": "Exact round trip for templates as plain data (elements, void elements, plain/boolean/delimited attributes, comments, text; scalar values); C06_any_template extends proper nesting to every node kind with inert values. The tokenizer is SpecHtml.v; its simplifications are listed there and in DESIGN.md. Attribute names must differ ignoring case; elements with raw text content may hold text only."
  },
  {
   "property": "C07",
   "status": "proved",
   "theorems": [
    "C07_void",
    "C07_content_ignored",
    "C07_attributes_only",
    "C07_names"
   ],
   "note": "Tag only; same tag as the non-void element; the 14 names."
  },
  {
   "property": "C08",
   "status": "proved",
   "theorems": [
    "C08_language",
    "C08_accept",
    "C08_reject",
    "C08_constructors",
    "C08_safe"
   ],
   "note": "Exact language by listing its characters; all five constructors; PanicOnInvalidName."
  },
  {
   "property": "C09",
   "status": "proved",
   "theorems": [
    "C09_names_once"
   ],
   "note": "For every argument list, every truth of conditions and every map order."
  },
  {
   "property": "C10",
   "status": "proved",
   "theorems": [
    "C10_static",
    "C10_all_delimited",
    "C10_last_wins",
    "C10_reset",
    "C10_stored"
   ],
   "note": "Stored and rendered attributes are the effective attribute of each name in first-declaration order; closed forms of effective."
  },
  {
   "property": "C11",
   "status": "proved",
   "theorems": [
    "C11_position",
    "C11_interleave"
   ],
   "note": "Equal elements for every interleaving."
  },
  {
   "property": "C12",
   "status": "proved",
   "theorems": [
    "C12_delimited"
   ],
   "note": "Closed form of the joined values of a delimited attribute; a trailing empty value leaves the delimiter of the value before it (stated in the theorem)."
  },
  {
   "property": "C13",
   "status": "proved",
   "theorems": [
    "C13_resolution",
    "C13_delimited_static",
    "C13_other_static",
    "C13_no_static_delimited",
    "C13_no_static_other",
    "C13_order"
   ],
   "note": "Attributes are a permutation of a list that depends on declarations and active conditions only; two map orders give permutations of each other."
  },
  {
   "property": "C14",
   "status": "partial",
   "theorems": [
    "C14_enclosing_partial",
    "C14_three_levels_partial",
    "C14_evaluation_partial",
    "C14_refuted",
    "C14_existential_refuted",
    "C14_exact",
    "C14_exact_pure",
    "C14_full_depths",
    "C14_conditional_made",
    "C14_written_partial"
   ],
   "note": "False as stated: refuted at four levels with two siblings (append aliasing). Proved: for every template, exactly which conditions decide about which attribute (C14_exact, specification in SpecShared.v; which depths share is C14_full_depths); the claim itself for templates as written up to three levels (C14_written_partial) and whenever no conditional with spare capacity has two below it."
  },
  {
   "property": "C15",
   "status": "proved",
   "theorems": [
    "C15_gate",
    "C15_false",
    "C15_conjunction",
    "C15_nil_function"
   ],
   "note": "Gate, conjunction, nil function."
  },
  {
   "property": "C16",
   "status": "partial",
   "theorems": [
    "C16_when",
    "C16_when_not",
    "C16_complement_partial",
    "C16_refuted"
   ],
   "note": "Exact characterisation of When(k) and When(\"!\"+k); complement for keys not starting with \"!\"; refuted for keys starting with \"!\"."
  },
  {
   "property": "C17",
   "status": "proved",
   "theorems": [
    "C17_collection",
    "C17_element",
    "C17_nested",
    "C17_flatten"
   ],
   "note": "Element, void element, nested collections, full flattening."
  },
  {
   "property": "C18",
   "status": "partial",
   "theorems": [
    "C18_values",
    "C18_element",
    "C18_collection",
    "C18_write_nodes",
    "C18_collect",
    "C18_start",
    "C18_nil_nodes_panic",
    "C18_refuted"
   ],
   "note": "Elements, values, Collection, WriteNodes, ContentCollect and Start ignore nil; Conditional, When and the Iterate functions panic (refuted)."
  },
  {
   "property": "C19",
   "status": "proved",
   "theorems": [
    "C19_healthy"
   ],
   "note": "Every order of map iteration and state; templates from the constructors whose Imperative functions return nil when ctx.Error is nil. The reference rendering is SpecOut.snode."
  },
  {
   "property": "C20",
   "status": "proved",
   "theorems": [
    "C20_prefix",
    "C20_exact",
    "C20_complete"
   ],
   "note": "C20_prefix for every dying writer; C20_exact for each byte offset; C20_complete: no failure, nothing lost."
  },
  {
   "property": "C21",
   "status": "partial",
   "theorems": [
    "C21_reported_partial",
    "C21_truncated_partial",
    "C21_element",
    "C21_void",
    "C21_refuted"
   ],
   "note": "Proved for templates whose Imperative functions return ctx.Error, and for every element whatever it contains. False in general: C21_refuted (an Imperative function that returns nil)."
  },
  {
   "property": "C22",
   "status": "partial",
   "theorems": [
    "C22_origin_partial",
    "C22_first_partial",
    "C22_last_call_partial",
    "C22_nil_partial",
    "C22_refuted",
    "C22_last_kept_refuted",
    "C22_yield_refuted"
   ],
   "note": "Proved for writers that keep failing with one error; the reported error always comes from the writer, and without IterateYield it is the answer to the last call, whatever the writer does. False in general: C22_refuted, C22_last_kept_refuted (Value.render overwrites ctx.Error), C22_yield_refuted."
  },
  {
   "property": "C23",
   "status": "partial",
   "theorems": [
    "C23_stops_partial",
    "C23_only_values_partial",
    "C23_refuted"
   ],
   "note": "Proved for templates without values, any writer. For every template: only the data of values is handed to the writer directly after a failed call (C23_only_values_partial). False in general: C23_refuted (Value.render writes regardless of ctx.Error)."
  },
  {
   "property": "C24",
   "status": "proved",
   "theorems": [
    "C24_iterate",
    "C24_enclosing_unchanged"
   ],
   "note": ""
  },
  {
   "property": "C25",
   "status": "proved",
   "theorems": [
    "C25_iterates",
    "C25_otherwise_nothing"
   ],
   "note": "The model of data values has []any, typed slices and []byte."
  },
  {
   "property": "C26",
   "status": "partial",
   "theorems": [
    "C26_most_recent_partial",
    "C26_maps_partial",
    "C26_refuted",
    "C26_inherit_refuted"
   ],
   "note": "Proved: the exact behaviour (Data is the most recent map yielded) and the claim when every item is a map. False otherwise: C26_refuted, C26_inherit_refuted."
  },
  {
   "property": "C27",
   "status": "proved",
   "theorems": [
    "C27_entered_in_error",
    "C27_yield_entered_in_error",
    "C27_stops_at_item",
    "C27_stops_at_node"
   ],
   "note": "Any writer, any environment."
  },
  {
   "property": "C28",
   "status": "proved",
   "theorems": [
    "C28_operations",
    "C28_nested"
   ],
   "note": "C28_operations says which tags each operation writes; C28_nested that they nest when the last operation is EndAll."
  },
  {
   "property": "C29",
   "status": "partial",
   "theorems": [
    "C29_same_tag_partial",
    "C29_refuted",
    "C29_empty_refuted",
    "C29_exact",
    "C29_cut_last",
    "C29_cut_none"
   ],
   "note": "C29_exact gives the tag for every list of attributes. It is the tag of the element when each name is declared uniformly and delimited values are not empty; not otherwise: C29_refuted, C29_empty_refuted."
  },
  {
   "property": "C30",
   "status": "proved",
   "theorems": [
    "C30_write_nodes",
    "C30_content_collect",
    "C30_collection",
    "C30_iterate",
    "C30_write_string",
    "C30_write_raw",
    "C30_content_kept",
    "C30_attributes_and_nils_dropped"
   ],
   "note": ""
  },
  {
   "property": "C31",
   "status": "partial",
   "theorems": [
    "C31_unaffected_partial",
    "C31_no_repeats_partial",
    "C31_unshared_partial",
    "C31_history_partial",
    "C31_refuted",
    "C31_repeated_refuted"
   ],
   "note": "False as stated: an element takes over the delimited attribute it finds in a collection and merges later ones of the same name into it, so a node used before can change (C31_refuted) or repeat values (C31_repeated_refuted). Proved: construction affects no attribute except that one case; with every node used once, a construction history renders as the pure constructors say."
  },
  {
   "property": "C32",
   "status": "proved",
   "theorems": [
    "C32_repeatable",
    "C32_values_untouched"
   ],
   "note": "For every history of renders of templates whose callbacks only read; that the arrays of attribute values are unchanged is proved on the memory model."
  },
  {
   "property": "C33",
   "status": "partial",
   "theorems": [
    "C33_no_interference",
    "C33_attributes",
    "C33_start_partial",
    "C33_refuted",
    "C33_executions"
   ],
   "note": "Proved for every number of renders and every schedule at the level of effects, and at the level of arrays for the attributes of elements. Start with a plain attribute whose slice has spare capacity appends in place: refuted by a schedule; proved when no slice has spare room."
  },
  {
   "property": "C34",
   "status": "partial",
   "theorems": [
    "C34_renders",
    "C34_own_slice",
    "C34_unmodified_partial",
    "C34_one_cell",
    "C34_unmodified_refuted",
    "C34_units"
   ],
   "note": "Rendering (arguments then unit), the caller's own slice and all but one cell of its array: proved for every slice of any length and capacity. The backing array is unmodified when the slice has no spare capacity; false otherwise: C34_unmodified_refuted."
  },
  {
   "property": "C35",
   "status": "proved",
   "theorems": [
    "C35_independent",
    "C35_spare_capacity",
    "C35_rendered"
   ],
   "note": "Every history of calls. Holds exactly when the package variables have no spare capacity (C35_spare_capacity); the Go compiler initialises them with capacity = length, which is part of the trusted base."
  },
  {
   "property": "C36",
   "status": "proved",
   "theorems": [
    "C36_headers",
    "C36_headers_js",
    "C36_deterministic"
   ],
   "note": "Every list of maps and every visiting order; sort.Strings is modelled as an ascending arrangement."
  },
  {
   "property": "C37",
   "status": "proved",
   "theorems": [
    "C37_mixture",
    "C37_others",
    "C37_stays_inside"
   ],
   "note": "Mixture: every argument list. No early end: every key, data that converts to inert bytes (strings, numbers, bools and more)."
  },
  {
   "property": "C38",
   "status": "partial",
   "theorems": [
    "C38_denotes",
    "C38_literal_partial",
    "C38_refuted",
    "C38_nul_refuted",
    "C38_source"
   ],
   "note": "The literal denotes the string for all bytes (C38_denotes). It is valid Go source only if the string is UTF-8 without NUL and byte order mark, which the generator does not ensure (C38_refuted)."
  },
  {
   "property": "C39",
   "status": "partial",
   "theorems": [
    "C39_code_partial",
    "C39_matched",
    "C39_unambiguous",
    "C39_spelling",
    "C39_refuted",
    "C39_void_refuted"
   ],
   "note": "Proved for all documents whose names contain no quotation mark, backslash or newline; false for names that do (C39_refuted), since names are not escaped. C39_matched: for any token sequence the code is a Go declaration exactly when tags match up."
  },
  {
   "property": "C40",
   "status": "partial",
   "theorems": [
    "C40_output",
    "C40_last_write",
    "C40_reported_partial",
    "C40_prefix",
    "C40_refuted"
   ],
   "note": "False as stated: each write overwrites the error of the one before (C40_refuted). Proved: exactly the error of the last write is returned; every failure of a writer that keeps failing is reported."
  },
  {
   "property": "C41",
   "status": "partial",
   "theorems": [
    "C41_void_partial",
    "C41_track_refuted",
    "C41_html_elements",
    "C41_html_attributes",
    "C41_svg_elements",
    "C41_svg_attributes",
    "C41_booleans",
    "C41_html_reachable",
    "C41_svg_reachable",
    "C41_svg_reachable_refuted",
    "C41_all_mapped_refuted"
   ],
   "note": "Tables read off the source. False as stated: C41_track_refuted (html.Track is not void), C41_svg_reachable_refuted (camel-case keys), C41_all_mapped_refuted (functions without a table entry). Proved: all other functions, agreement of every entry, all html keys reachable, boolean table exact."
  },
  {
   "property": "C42",
   "status": "proved",
   "theorems": [
    "C42_get",
    "C42_no_context",
    "C42_must_get"
   ],
   "note": "Go reflection is modelled from its documentation: struct fields with embedding, promotion by depth, conversion by exact type."
  },
  {
   "property": "C43",
   "status": "partial",
   "theorems": [
    "C43_no_panic_partial",
    "C43_exact",
    "C43_data_never_panics",
    "C43_refuted",
    "C43_unexported_refuted",
    "C43_nil_embedded_refuted"
   ],
   "note": "False as stated: a map with keys of a defined string type, an unexported field and a promoted field behind a nil embedded pointer make Get panic (C43_*refuted). C43_exact: for cargo that has the types its declarations say, and keys other than the blank identifier, it panics in exactly these three cases, and only if Data has no value of the right type."
  },
  {
   "property": "C44",
   "status": "proved",
   "theorems": [
    "C44_new_template",
    "C44_splices",
    "C44_in_place",
    "C44_misplaced",
    "C44_stops",
    "C44_stops_any_writer",
    "C44_write_errors",
    "C44_no_shared_context"
   ],
   "note": "For templates whose actions are all {{token .}}, between tags or inside one where an attribute can stand; the behaviour of html/template itself is taken from its documentation."
  },
  {
   "property": "C45",
   "status": "proved",
   "theorems": [
    "C45_document"
   ],
   "note": "Page equation for every lang, head and body."
  },
  {
   "property": "C46",
   "status": "proved",
   "theorems": [
    "C46_nbsps"
   ],
   "note": "For every integer n."
  },
  {
   "property": "C47",
   "status": "proved",
   "theorems": [
    "C47_one_attribute",
    "C47_element",
    "C47_entry",
    "C47_properties"
   ],
   "note": "Every list of Style and css calls among other unconditional attributes; empty Style values are dropped as in C12."
  },
  {
   "property": "C48",
   "status": "proved",
   "theorems": [
    "C48_comment",
    "C48_attribute"
   ],
   "note": "Comment and attribute values cannot end their construct."
  },
  {
   "property": "C49",
   "status": "proved",
   "theorems": [
    "C49_text",
    "C49_kinds",
    "C49_concat",
    "C49_value",
    "C49_node_values",
    "C49_collection_values",
    "C49_other_nodes"
   ],
   "note": "Grouping and concatenation of values."
  },
  {
   "property": "C50",
   "status": "partial",
   "theorems": [
    "C50_silent_partial",
    "C50_values_first_partial",
    "C50_refuted",
    "C50_nil_function_refuted",
    "C50_nil_function_alone"
   ],
   "note": "Proved for templates without values; for the others, nothing is written before the first value (C50_values_first_partial). False in general: C50_refuted (values), C50_nil_function_refuted (a nil Imperative function)."
  },
  {
   "property": "C51",
   "status": "partial",
   "theorems": [
    "C51_refuted",
    "C51_last_wins_partial",
    "C51_rendered",
    "C51_linear_partial",
    "C51_order_partial",
    "C51_group_refuted"
   ],
   "note": "False as stated: an active conditional declaration overrides a later static one, and inside a conditional an attribute in a group beats a later one outside it (refuted). Proved: the exact order in which declarations count (C51_rendered) whenever no conditional with spare capacity has two below it (C51_linear_partial), as is so up to three levels of conditionals (C51_order_partial)."
  },
  {
   "property": "C52",
   "status": "proved",
   "theorems": [
    "C52_dynamic",
    "C52_raw",
    "C52_stringer",
    "C52_write_raw",
    "C52_everywhere",
    "C52_any_writer",
    "C52_key",
    "C52_cargo"
   ],
   "note": "Raw sources are written verbatim."
  },
  {
   "property": "C53",
   "status": "partial",
   "theorems": [
    "C53_rebuilds_partial",
    "C53_script_refuted",
    "C53_comment_refuted",
    "C53_name_refuted",
    "C53_value_refuted",
    "C53_prefix_refuted",
    "C53_prefix_becomes",
    "C53_duplicate_refuted"
   ],
   "note": "Proved for all documents with names the package accepts, no NUL, boolean attributes without values, distinct attributes, and no characters to escape in comments, doctypes and raw-text elements. False otherwise: scripts and comments are escaped, refused names are dropped, values of boolean attributes are lost, the attribute aria- is renamed, of equal attributes the last one wins (C53_*_refuted)."
  },
  {
   "property": "C54",
   "status": "partial",
   "theorems": [
    "C54_result",
    "C54_always",
    "C54_return_only",
    "C54_collection_stops",
    "C54_conditional_stops",
    "C54_element_partial",
    "C54_nested_partial",
    "C54_nested_exact_partial",
    "C54_refuted",
    "C54_ignored_refuted"
   ],
   "note": "Proved for every function and writer: the node returns what the function returns, nothing else depends on it, Collection and conditional stop. An element reports it if no values follow in the element. C54_nested_partial: at any depth of elements (no values after it), collections, conditionals and iterations, some error is returned whatever the writer; C54_nested_exact_partial: it is that error if nothing else fails. False otherwise: a text after it makes the error disappear (C54_refuted); WriteNodes, ContentCollect and Document ignore it (C54_ignored_refuted)."
  },
  {
   "property": "C55",
   "status": "proved",
   "theorems": [
    "C55_vars",
    "C55_merged"
   ],
   "note": "Every list of calls of Vars and Var, names and values (also dynamic ones)."
  },
  {
   "property": "C56",
   "status": "partial",
   "theorems": [
    "C56_absent_partial",
    "C56_linear_partial",
    "C56_refuted",
    "C56_together_refuted"
   ],
   "note": "Proved for conditionals whose enclosing conditions have no side effects, at most three deep (C56_absent_partial) or at any depth if no conditional with spare capacity has two below it (C56_linear_partial). False for two siblings four deep (C56_refuted, append aliasing) and for conditions with side effects, which are asked again for each attribute (C56_together_refuted)."
  },
  {
   "property": "C57",
   "status": "partial",
   "theorems": [
    "C57_only_empty",
    "C57_refuted"
   ],
   "note": "False: keys are put in single quotes, which JSON does not know (C57_refuted). C57_only_empty settles every case, for any maps and values: the value is JSON exactly when there are no headers."
  },
  {
   "property": "C58",
   "status": "partial",
   "theorems": [
    "C58_components_partial",
    "C58_alone",
    "C58_refuted"
   ],
   "note": "C58_components_partial: any contents, in any places, however nested, may be wrapped in components. False for attributes, conditionals that hold attributes and collections with attributes: an element does not find them in a component (C58_refuted)."
  },
  {
   "property": "C59",
   "status": "proved",
   "theorems": [
    "C59_elements",
    "C59_para",
    "C59_attributes",
    "C59_htmx",
    "C59_distinct",
    "C59_constants",
    "C59_attr_constants"
   ],
   "note": "By computation over the tables that tools/gen_tables.py reads off the source. On, Headers and HeadersJS are covered by C35 and C36, css property functions by C47_properties."
  },
  {
   "property": "C60",
   "status": "proved",
   "theorems": [
    "C60_kind",
    "C60_utf8",
    "C60_page",
    "C60_no_nul"
   ],
   "note": "C60_kind is the claim for any kind of text that includes ASCII and is closed under escaping; C60_utf8, C60_page and C60_no_nul are instances."
  },
  {
   "property": "C61",
   "status": "partial",
   "theorems": [
    "C61_panics",
    "C61_new_partial",
    "C61_must",
    "C61_refuted"
   ],
   "note": "C61_panics says exactly when NewTemplate panics (ASCII keys); C61_new_partial and C61_must settle all node maps whose keys are identifiers. False in general: Funcs of html/template panics on any other key, even if no token uses it (C61_refuted)."
  },
  {
   "property": "C62",
   "status": "proved",
   "theorems": [
    "C62_element",
    "C62_attribute",
    "C62_pi",
    "C62_valid_name",
    "C62_other_names",
    "C62_checked",
    "C62_functions",
    "C62_attribute_functions",
    "C62_css",
    "C62_constructors"
   ],
   "note": "Accessors.v models Type and Name of every node kind; user-defined nodes have accessors of their own."
  },
  {
   "property": "C63",
   "status": "proved",
   "theorems": [
    "C63_agree",
    "C63_kept"
   ],
   "note": "C63_agree: with callbacks that only read contexts the pointer model (Pointer.v) and Render.v agree, and nothing but ctx.Error of the given context changes. C63_kept: if callbacks also store errors, in any contexts, Data, Cargo and Parent are kept."
  },
  {
   "property": "C64",
   "status": "partial",
   "theorems": [
    "C64_iterate_partial",
    "C64_yield_refuted"
   ],
   "note": "Proved for Iterate, with callbacks that may assign anything. False for IterateYield, whose items share Data (C64_yield_refuted)."
  },
  {
   "property": "C65",
   "status": "partial",
   "theorems": [
    "C65_stored_partial",
    "C65_text_refuted",
    "C65_value_refuted",
    "C65_iterate_refuted"
   ],
   "note": "Proved for templates without values, iteration and Imperative. False otherwise: a value written afterwards, or the value whose function stored it, clears the error (C65_text_refuted, C65_value_refuted), and Iterate returns nil when there are no items (C65_iterate_refuted)."
  },
  {
   "property": "C66",
   "status": "partial",
   "theorems": [
    "C66_element_partial",
    "C66_start",
    "C66_returned",
    "C66_element_refuted",
    "C66_start_refuted"
   ],
   "note": "C66_element_partial: proved for elements, unless the name is also declared by a delimited attribute and the two differ in values. False there: the attribute is then not written (C66_element_refuted). False for Start, which writes its name only (C66_start_refuted); C66_start is exact. C66_returned: errors it returns are dropped."
  },
  {
   "property": "C67",
   "status": "proved",
   "theorems": [
    "C67_shown",
    "C67_names",
    "C67_last",
    "C67_overridden",
    "C67_own"
   ],
   "note": "C67_own: on library attributes the model of UserAttr.v is that of Render.v."
  },
  {
   "property": "C68",
   "status": "partial",
   "theorems": [
    "C68_seen",
    "C68_exact_partial",
    "C68_nested",
    "C68_refuted",
    "C68_textarea_refuted"
   ],
   "note": "C68_seen settles every template given as plain data: its tokens with CR LF and CR turned into LF, and without a newline at the start of pre, listing and textarea. Exactly its tokens if there are none of these (C68_exact_partial). False as stated: the library writes CR as it is (C68_refuted) and does not protect the first newline of a textarea (C68_textarea_refuted)."
  },
  {
   "property": "C69",
   "status": "proved",
   "theorems": [
    "C69_returns",
    "C69_no_panic",
    "C69_ends"
   ],
   "note": "About the translated source (Source.v, GoSem.v). Callbacks return, and yield is called only while the function runs (DESIGN 2)."
  },
  {
   "property": "C70",
   "status": "proved",
   "theorems": [
    "C70_memory",
    "C70_again"
   ],
   "note": "About the translated source, on its heap of structs, arrays and maps. The plain attributes an Imperative function hands to Start have no spare capacity; for others see C33."
  },
  {
   "property": "C71",
   "status": "proved",
   "theorems": [
    "C71_page",
    "C71_calls"
   ],
   "note": "C71_calls: on any writer the source makes the calls, returns the errors and leaves the user state that Render.v says, so every theorem about render is one about the source."
  },
  {
   "property": "C72",
   "status": "proved",
   "theorems": [
    "C72_shared",
    "C72_values",
    "C72_only",
    "C72_no_panic",
    "C72_page",
    "C72_values_refuted"
   ],
   "note": "About the translated source. C72_values_refuted shows why attributes passed on twice need the model with shared objects (C31)."
  },
  {
   "property": "C73",
   "status": "proved",
   "theorems": [
    "C73_complete",
    "C73_found",
    "C73_tables",
    "C73_constants",
    "C73_shared",
    "C73_values",
    "C73_only",
    "C73_page",
    "C73_element",
    "C73_attribute",
    "C73_constant",
    "C73_constant_value",
    "C73_prefixed",
    "C73_unit"
   ],
   "note": "About the translated source, like C72; C73_tables and C73_constants check the tables of Tables.v against it."
  },
  {
   "property": "C74",
   "status": "proved",
   "theorems": [
    "C74_headers",
    "C74_headers_js",
    "C74_mixture",
    "C74_shown",
    "C74_shown_js"
   ],
   "note": "About the translated source, like C72; a HeadersMap is not nil."
  },
  {
   "property": "C75",
   "status": "proved",
   "theorems": [
    "C75_generated",
    "C75_code",
    "C75_declares",
    "C75_matched",
    "C75_rebuilds",
    "C75_errors",
    "C75_lost_write"
   ],
   "note": "About the translated source, like C72. C75_lost_write: a failed write in the middle is lost by the source too (C40)."
  },
  {
   "property": "C76",
   "status": "proved",
   "theorems": [
    "C76_new",
    "C76_syntax",
    "C76_must",
    "C76_execute",
    "C76_executions",
    "C76_page",
    "C76_in_place",
    "C76_stops",
    "C76_write_errors"
   ],
   "note": "About the translated source, like C72; html/template itself is described in GoSem.v."
  },
  {
   "property": "C77",
   "status": "proved",
   "theorems": [
    "C77_get",
    "C77_must_get",
    "C77_returns",
    "C77_no_context",
    "C77_panics",
    "C77_must"
   ],
   "note": "About the translated source, like C72; reflect is described in Reflect.v, as for C42."
  },
  {
   "property": "C78",
   "status": "proved",
   "theorems": [
    "C78_type",
    "C78_name",
    "C78_new",
    "C78_starts",
    "C78_nbsp",
    "C78_nbsps"
   ],
   "note": "About the translated source, like C72; integers do not overflow in the model, so Nbsps is for n below 2^63/6."
  },
  {
   "property": "C79",
   "status": "proved",
   "theorems": [
    "C79_1",
    "C79_2",
    "C79_3",
    "C79_4",
    "C79_4_when",
    "C79_5",
    "C79_6",
    "C79_7",
    "C79_8",
    "C79_9",
    "C79_10",
    "C79_11",
    "C79_template"
   ],
   "note": "About the translated source, like C73 and C76; the main functions are written out as programs of calls by hand, with Data and the callbacks left open."
  },
  {
   "property": "C80",
   "status": "proved",
   "theorems": [
    "C80_goroutines",
    "C80_ends",
    "C80_pages",
    "C80_shared_context_refuted"
   ],
   "note": "About the translated source, like C70 and C76; user code has a state for each goroutine. C80_shared_context_refuted: two goroutines may not share a context."
  },
  {
   "property": "C81",
   "status": "proved",
   "theorems": [
    "C81_goroutines",
    "C81_ends",
    "C81_dying",
    "C81_accepted",
    "C81_pages",
    "C81_mixed",
    "C81_whole_pages_refuted"
   ],
   "note": "About the translated source, like C80; a call of Write is one step. C81_whole_pages_refuted: the pages may be interleaved, as the comment in template.go says."
  },
  {
   "property": "C82",
   "status": "proved",
   "theorems": [
    "C82_objects",
    "C82_handed"
   ],
   "note": "About the translated source. The plain attributes handed to Start have no spare capacity (C33 tells what happens with others)."
  }
 ]
}