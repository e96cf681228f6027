{
 "claims": [
  {
   "property": "C01",
   "status": "partial",
   "theorems": [
    "C01_edit_histories_partial",
    "C01_edits_total",
    "C01_alloc",
    "C01_before_refuted",
    "C01_before_always_corrupts"
   ],
   "note": "Refuted on the faithful model: Element::before leaves an inconsistent document on every attached receiver. Proved for every history of the other edits (remove, insert_before, insert_after, append, after, replace_with, replace_child, flatten, append_child, prepend, insert)."
  },
  {
   "property": "C02",
   "status": "proved",
   "theorems": [
    "C02_iteration_is_deque",
    "C02_forward",
    "C02_backward",
    "C02_item",
    "C02_child_index"
   ],
   "note": "Child iteration over any consistent forest answers like a double-ended queue of the child list for every schedule."
  },
  {
   "property": "C03",
   "status": "partial",
   "theorems": [
    "C03_retain_prefix_partial",
    "C03_retain_children_refuted",
    "C03_retain_children_exact"
   ],
   "note": "Refuted on the faithful model: retain_children never relinks next_sibling. Exact domain proved: consistent iff the dropped children are a prefix."
  },
  {
   "property": "C04",
   "status": "partial",
   "theorems": [
    "C04_sort_child_elements_partial",
    "C04_sort_links_refuted",
    "C04_sort_order_refuted"
   ],
   "note": "Refuted on the faithful model: the new first child keeps its old previous sibling; proved exact: consistent iff the first child stays first. Order, permutation and stability proved for a stable-sort model of slice::sort_by."
  },
  {
   "property": "C05",
   "status": "partial",
   "theorems": [
    "C05_set_local_name_partial",
    "C05_rename_keeps_children_refuted"
   ],
   "note": "Refuted on the faithful model: renaming drops all children. Position, attributes and all other nodes proved preserved."
  },
  {
   "property": "C06",
   "status": "partial",
   "theorems": [
    "C06_append_child_partial",
    "C06_prepend_partial",
    "C06_append_child_moves_refuted"
   ],
   "note": "Refuted on the faithful model: adding an attached node always leaves inconsistent links; proved for detached nodes."
  },
  {
   "property": "C07",
   "status": "proved",
   "theorems": [
    "C07_ids_identify_nodes",
    "C07_alloc",
    "C07_reorder_document_order",
    "C07_new_allocator",
    "C07_cloned_allocator_refuted"
   ],
   "note": "Proved for every history of allocations and reorders through one allocator. A derived Clone of the allocator hands out duplicate ids (C07_cloned_allocator_refuted); nothing in the repository clones one."
  },
  {
   "property": "C08",
   "status": "proved",
   "theorems": [
    "C08_visit_order",
    "C08_flags_restored",
    "C08_each_once",
    "C08_every_element",
    "C08_prepare",
    "C08_exit_skip_leaks_refuted"
   ],
   "note": "Proved for every tree and every callback behaviour that asks to skip only on entering an element, including failing callbacks. A skip request made on leaving an element leaks to the next element (C08_exit_skip_leaks_refuted). Callbacks that edit the tree during the walk are not modelled."
  },
  {
   "property": "C09",
   "status": "proved",
   "theorems": [
    "C09_escape_decodes",
    "C09_escape_no_breakout",
    "C09_escape_ampersands"
   ],
   "note": "Proved for every string, both quote styles, text and attribute values."
  },
  {
   "property": "C10",
   "status": "partial",
   "theorems": [
    "C10_round_trip_partial",
    "C10_round_trip_default",
    "C10_round_trip_preserve",
    "C10_attribute_newline_refuted",
    "C10_carriage_return_refuted",
    "C10_style_refuted"
   ],
   "note": "Refuted on the faithful model: tab, newline and carriage return are not written as character references, and style rules are not escaped. Proved for every tree without those characters (and without markup in style rules), for every whitespace mode, without indentation. Doctype nodes are dropped by the writer and excluded from the tree compared. The indented output is not covered."
  },
  {
   "property": "C11",
   "status": "partial",
   "theorems": [
    "C11_comment_exact",
    "C11_comment_refuted",
    "C11_cdata_partial",
    "C11_cdata_refuted",
    "C11_pi_partial",
    "C11_pi_position_refuted",
    "C11_pi_value_refuted"
   ],
   "note": "Refuted on the faithful model: comment and processing-instruction text is written unchecked, two CDATA pieces can join into a terminator, and an instruction that is not the first output fails the serialisation. Proved for texts without the terminator, one CDATA piece per element, and an instruction at the start."
  },
  {
   "property": "C12",
   "status": "partial",
   "theorems": [
    "C12_root_space_partial",
    "C12_last_attribute",
    "C12_scope_refuted",
    "C12_restore_refuted"
   ],
   "note": "Refuted on the faithful model: the flag is never restored when the element ends. Proved when only the root carries xml:space, and the actual rule (last attribute written wins) is characterised."
  },
  {
   "property": "C55",
   "status": "partial",
   "theorems": [
    "C55_words_kept",
    "C55_only_whitespace_partial",
    "C55_no_break_space_refuted"
   ],
   "note": "Refuted on the faithful model for whitespace outside XML's four characters (no-break space). Words are kept for every text; nothing but XML whitespace changes when the text has only XML whitespace."
  },
  {
   "property": "C13",
   "status": "partial",
   "theorems": [
    "C13_attribute_map_partial",
    "C13_get_mut",
    "C13_get_ns",
    "C13_set_position",
    "C13_lookup_refuted"
   ],
   "note": "Refuted on the faithful model: setting matches by qualified name but reading and removing match by attribute id, and 23 names belong to several ids. Proved for every edit history in which the names involved do not mix such ids."
  },
  {
   "property": "C14",
   "status": "partial",
   "theorems": [
    "C14_comparator",
    "C14_sort_by_unique",
    "C14_sorted_permutation",
    "C14_idempotent",
    "C14_order_independent",
    "C14_alias_refuted"
   ],
   "note": "Proved for every list, order list and mode; independence of the original order is proved for distinct shown names and refuted for an aliased attribute that ties with an unknown one."
  },
  {
   "property": "C15",
   "status": "partial",
   "theorems": [
    "C15_class_list",
    "C15_no_duplicates_partial",
    "C15_serialised",
    "C15_replace_refuted"
   ],
   "note": "Refuted on the faithful model only for replace, which can duplicate a class. Everything else proved for every operation sequence and every memoised index, for an element with at most one, parsed, class attribute."
  },
  {
   "property": "C51",
   "status": "partial",
   "theorems": [
    "C51_prefix_equality",
    "C51_prefix_hash",
    "C51_total_orders",
    "C51_agree_partial",
    "C51_hash_partial",
    "C51_prefix_order_refuted",
    "C51_attr_order_refuted",
    "C51_alias_hash_refuted"
   ],
   "note": "Refuted on the faithful model: equality is by namespace or id, ordering by prefix string and local name, and the derived hash distinguishes aliases. Proved for prefixes in one-to-one correspondence with namespaces and for unaliased ids."
  },
  {
   "property": "C16",
   "status": "proved",
   "theorems": [
    "C16_ids_fresh",
    "C16_ids_total",
    "C16_no_gap"
   ],
   "note": "Proved for every history of generator calls and every finite set of ids to avoid."
  },
  {
   "property": "C17",
   "status": "partial",
   "theorems": [
    "C17_references_partial",
    "C17_switched_off",
    "C17_capture_refuted"
   ],
   "note": "Refuted on the faithful model: several references in one attribute are renamed one after the other, so one can capture another. Proved for unique, non-numeric, percent-free ids when no attribute can mix up its own references, for every option setting with minify on, and with both switches off."
  },
  {
   "property": "C18",
   "status": "partial",
   "theorems": [
    "C18_only_unused_partial",
    "C17_references_partial",
    "C18_minify_off_refuted",
    "C18_numeric_refuted",
    "C18_encoded_refuted"
   ],
   "note": "Refuted on the faithful model: minify:false with remove:true removes referenced ids; numeric ids are removed even if preserved and referenced; an id equal to the encoded form of an earlier one is removed. Proved under the conditions of C17 with minify on."
  },
  {
   "property": "C19",
   "status": "partial",
   "theorems": [
    "C19_idempotent",
    "C19_links_partial",
    "C19_clash_refuted",
    "C19_switch_refuted",
    "C19_empty_style_refuted",
    "C19_percent_refuted"
   ],
   "note": "Refuted on the faithful model: an id that already has the prefix can collide, urls are prefixed even when ids are not, an empty style element is skipped, percent-encoded references are compared raw. Idempotence proved for all documents; links and uniqueness proved outside those cases."
  },
  {
   "property": "C56",
   "status": "partial",
   "theorems": [
    "C56_file_name_partial",
    "C56_file_name_refuted"
   ],
   "note": "Refuted on the faithful model: the first path component is used instead of the file's name. Proved for a path without directories."
  },
  {
   "property": "C22",
   "status": "partial",
   "theorems": [
    "C22_sound_partial",
    "C22_takes_partial",
    "C22_no_panic_partial",
    "C22_trailing_dot_refuted",
    "C22_panic_refuted",
    "C22_continuation_refuted"
   ],
   "note": "Refuted on the faithful model: a dot at the end of the input breaks or panics numbers elsewhere, and '1..5' or '1e q' is rejected instead of stopping at the number. Soundness, maximality and completeness proved for every input that does not end in a dot; finiteness of the double is a parameter."
  },
  {
   "property": "C23",
   "status": "partial",
   "theorems": [
    "C23_matches",
    "C23_expect_matches",
    "C23_try_parse",
    "C23_skip_char_partial",
    "C23_read_partial",
    "C23_expect_str_partial",
    "C23_skip_char_refuted",
    "C23_boundary_refuted",
    "C23_expect_str_refuted"
   ],
   "note": "Refuted on the faithful model: skip_char trims both ends, advance moves one byte whatever the character, expect_str can overrun the end. Proved for the predicate primitives and try_parse on every input, for skip_char when the input does not end in the character, for read on ASCII, for an expected string that is present."
  },
  {
   "property": "C20",
   "status": "partial",
   "theorems": [
    "C20_terminates_partial",
    "C20_no_close_partial",
    "C20_no_panic_partial",
    "C20_loop_refuted",
    "C20_panic_refuted"
   ],
   "note": "Refuted on the faithful model: 'M0 0Z1 1' never ends, and non-ASCII text can panic. Proved for every text outside those cases (see the hypotheses), and absence of panics for all ASCII text."
  },
  {
   "property": "C21",
   "status": "partial",
   "theorems": [
    "C21_round_trip_partial",
    "C21_glued_flags",
    "C21_exponent_refuted",
    "C21_unreadable_refuted",
    "C21_glued_refuted",
    "C21_close_refuted"
   ],
   "note": "Refuted on the faithful model: exponents lose a trailing zero, text after an exponent is glued or unreadable, repeated closepaths are lost. Proved for every well-formed path whose numbers are printed without exponent and that has no implicit closepath. Doubles are represented by their shortest decimal; the ryu digit generation itself is trusted."
  },
  {
   "property": "C42",
   "status": "proved",
   "theorems": [
    "C42_line_and_column",
    "C42_total",
    "C42_ordered"
   ],
   "note": "Proved for every source and offset; an offset past the end is a panic."
  },
  {
   "property": "C45",
   "status": "proved",
   "theorems": [
    "C45_words",
    "C45_words_exist",
    "C45_idempotent",
    "C45_newlines",
    "C45_ends",
    "C45_spaces",
    "C45_off",
    "C45_inner"
   ],
   "note": "Proved for every text and every combination of options. Which attributes have free text (content type Anything) is not modelled."
  },
  {
   "property": "C43",
   "status": "partial",
   "theorems": [
    "C43_round_trip_partial",
    "C43_printed",
    "C43_empty_partial",
    "C43_terminates",
    "C43_classes_partial",
    "C43_quote_refuted",
    "C43_anything_refuted"
   ],
   "note": "Refuted on the faithful model: an item beginning with a quote swallows the rest of the list, lists of free text lose the difference between no item and an empty item. Proved for all four separators and every item type when the items' texts are not empty, have no separator and begin with neither white space nor a quote; termination proved for every input."
  },
  {
   "property": "C44",
   "status": "partial",
   "theorems": [
    "C44_round_trip_partial",
    "C44_negative_refuted",
    "C44_negative_seconds_refuted",
    "C44_sign_lost_refuted",
    "C44_panic_refuted"
   ],
   "note": "Refuted on the faithful model: negative parts are padded to '0-5:30', '-0:30' loses its sign, non-ASCII text panics. Proved for every clock value without negative colon parts, for any number printer that satisfies the stated hypotheses (the printer is an external library)."
  },
  {
   "property": "C36",
   "status": "partial",
   "theorems": [
    "C36_extend",
    "C36_resolve_partial",
    "C36_names",
    "C36_safe",
    "C36_no_preset_partial",
    "C36_omit_refuted"
   ],
   "note": "Refuted on the faithful model: without `extends` the `omit` list is ignored. Proved: the merge laws, and with `extends` that omitted jobs are off and every other job has the user's or else the preset's settings. Omitted names that are not field names (camelCase ones for instance) have no effect."
  },
  {
   "property": "C37",
   "status": "proved",
   "theorems": [
    "C37_run",
    "C37_each_once",
    "C37_result",
    "C37_same_settings"
   ],
   "note": "Proved for every configuration, document and behaviour of the jobs; what a single job does is a parameter here."
  },
  {
   "property": "C57",
   "status": "partial",
   "theorems": [
    "C57_names_partial",
    "C57_params_partial",
    "C57_preset_refuted",
    "C57_path_refuted"
   ],
   "note": "Refuted on the faithful model: the object form of preset-default is rejected, and convertPathData with parameters that are not an object is silently left off. Proved for every list of plugin names without underscores, and for a plugin with parameters; decoding of parameters is a parameter of the model."
  },
  {
   "property": "C29",
   "status": "partial",
   "theorems": [
    "C29_convert_partial",
    "C29_collapse",
    "C29_useless",
    "C29_short_rotates",
    "C29_no_panic",
    "C29_shift_refuted"
   ],
   "note": "Refuted on the faithful model: a matrix that moves by exactly (1,1) is dropped. Proved over the reals without rounding for every list, option setting and printer when no matrix left after collapsing has that translation; absence of panics proved with rounding for every list."
  },
  {
   "property": "C30",
   "status": "proved",
   "theorems": [
    "C30_decompositions",
    "C30_exist"
   ],
   "note": "Proved over the reals for every matrix; floating-point error is not modelled."
  },
  {
   "property": "C58",
   "status": "partial",
   "theorems": [
    "C58_argument_partial",
    "C58_whole",
    "C58_places_refuted",
    "C58_scale_refuted"
   ],
   "note": "Refuted on the faithful model: matrices of whole numbers are decomposed with no decimals at all, and precisions of 20 or more round to whole numbers. The error bound of a single argument is proved for precisions 1 to 19, over the reals."
  },
  {
   "property": "C31",
   "status": "partial",
   "theorems": [
    "C31_round_trip_partial",
    "C31_long_panics",
    "C31_long_refuted",
    "C31_css_refuted"
   ],
   "note": "Refuted on the faithful model: a list of 2048 or more items panics when read, and a CSS transform that is not last is not read back. Proved for every list of fewer than 2048 SVG transforms, for every number printer whose numbers read back by themselves (the printer is an external library)."
  },
  {
   "property": "C59",
   "status": "partial",
   "theorems": [
    "C59_transforms_partial",
    "C59_clock_partial",
    "C59_refuted",
    "C59_later_refuted"
   ],
   "note": "Refuted on the faithful model: a non-ASCII letter panics the reader of transforms and of clock values. Proved for ASCII text (for transforms, shorter than 2048 characters). Path data is covered by C20, other attribute types are not modelled."
  },
  {
   "property": "C34",
   "status": "partial",
   "theorems": [
    "C34_parse_partial",
    "C34_memory_partial",
    "C34_own_declaration_refuted",
    "C34_sibling_refuted",
    "C34_shadowing_refuted",
    "C34_two_names_refuted",
    "C34_leak_refuted",
    "C34_put_back_refuted"
   ],
   "note": "Refuted on the faithful model: an element that declares its own prefix loses it, a declaration repeated by a later sibling is dropped, a namespace that is both default and prefixed moves attributes out of it; what is put back after an element pairs the wrong prefix and namespace, so that a later sibling changes namespace. Proved for every document that declares each prefix and namespace once, on an element outside its use as a name."
  },
  {
   "property": "C24",
   "status": "partial",
   "theorems": [
    "C24_read_partial",
    "C24_write_partial",
    "C24_optimize_partial",
    "C24_text_partial",
    "C24_text_drawing_partial",
    "C24_no_length_refuted",
    "C24_read_smooth_refuted",
    "C24_control_across_refuted",
    "C24_smooth_after_quad_refuted"
   ],
   "note": "Refuted on the faithful model: a line of no length is written as closepath; smooth commands after a curve of the other kind, or after another segment, use the wrong control point. Proved for every path without these (conditions smooth_matches, ends_apart, writable), coordinates on the grid of the precision. The printed text is read back as exactly the commands written, with implicit ones, for all segments without arcs, up to five places and below ten to the sixteenth. Missing: arcs when writing, lossy options."
  },
  {
   "property": "C25",
   "status": "partial",
   "theorems": [
    "C25_closed_partial",
    "C25_apart_partial",
    "C25_next_refuted",
    "C25_written_refuted",
    "C25_empty_refuted"
   ],
   "note": "Refuted on the faithful model: an open subpath that ends where the next one begins is taken as closed; a subpath passing its start is closed there; a closepath straight after a moveto is dropped. The exact rule for all paths is proved, and the property itself where no open subpath ends near the next moveto."
  },
  {
   "property": "C60",
   "status": "partial",
   "theorems": [
    "C60_rounding_partial",
    "C60_drift_refuted"
   ],
   "note": "Refuted on the faithful model: relative commands are rounded one by one from the exact position, so forty short lines end eleven units away. Proved: a single number moves by at most half a unit, and points on the grid do not move (C24_write_partial)."
  },
  {
   "property": "C61",
   "status": "partial",
   "theorems": [
    "C61_never_partial",
    "C61_default_partial",
    "C61_preserve_partial",
    "C61_root_partial",
    "C61_words_refuted"
   ],
   "note": "Refuted on the faithful model: with indentation the space at the edge of a text is dropped even inside text, so <text>a <tspan>b</tspan></text> becomes <text>a<tspan>b</tspan></text>. Proved for every document and indentation: apart from that collapsing of texts, only white space between nodes is added, none inside text or under a preserving root. Missing: attributes on lines of their own."
  },
  {
   "property": "C46",
   "status": "partial",
   "theorems": [
    "C46_exact_partial",
    "C46_none_missed_partial",
    "C46_plain_partial",
    "C46_once",
    "C46_selector_refuted",
    "C46_encoded_refuted"
   ],
   "note": "Refuted on the faithful model: an id used only by a style sheet selector, or through a percent-encoded reference, is reported. Proved for every document: the exact rule, no unreferenced id is missed, and the full property without such selectors and encodings."
  },
  {
   "property": "C47",
   "status": "partial",
   "theorems": [
    "C47_exact_partial",
    "C47_delete_partial",
    "C47_consistent_partial",
    "C47_source_partial",
    "C47_same_namespace_refuted"
   ],
   "note": "Refuted at source level: with two prefixes for one namespace, parsing gives all names the second prefix and the first is reported though used. Proved for every tree in memory: the exact rule, and that deleting a reported declaration changes no meaning when names agree with their declarations; for source documents that declare everything once, no name in scope uses a reported prefix."
  },
  {
   "property": "C32",
   "status": "proved",
   "theorems": [
    "C32_exact",
    "C32_meaning",
    "C32_source"
   ],
   "note": "For every document in memory: svg roots lose exactly the prefixed declarations whose namespace no prefixed name has, nothing else changes; meanings are kept when names agree with their declarations, as they do after parsing a document that declares everything once. Namespaces misread by the parser are the subject of C34."
  },
  {
   "property": "C33",
   "status": "partial",
   "theorems": [
    "C33_known_partial",
    "C33_outside_partial",
    "C33_declarations",
    "C33_declared_partial",
    "C33_unknown_refuted",
    "C33_undeclared_refuted",
    "C33_legacy_refuted"
   ],
   "note": "Refuted on the faithful model: unknown attributes such as data-x are removed unless legacy elements are included; xlink attributes that are not converted lose their declaration. Proved for every document: known attributes and all nodes stay apart from the replacements; all attributes stay when legacy elements are included or every name is known; nothing of xlink is left when each attribute has a replacement."
  },
  {
   "property": "C26",
   "status": "partial",
   "theorems": [
    "C26_totals_partial",
    "C26_rest",
    "C26_style_refuted",
    "C26_origin_refuted",
    "C26_used_partial"
   ],
   "note": "Refuted on the faithful model: a child whose style gives a transform hides the one it is handed, and transform-origin stays on the group. Proved for every tree: only transform attributes change; total transforms are kept when transforms are readable, given by attributes and have no origin; what a use of any id draws keeps its transforms too."
  },
  {
   "property": "C62",
   "status": "partial",
   "theorems": [
    "C62_placed_partial",
    "C62_filter_refuted"
   ],
   "note": "Refuted on the faithful model: a group with a filter function such as blur(2px) has its transform pushed down, so the blur is no longer scaled. Proved for every tree whose groups have such effects only as references."
  },
  {
   "property": "C27",
   "status": "partial",
   "theorems": [
    "C27_placed_partial",
    "C27_clip_refuted",
    "C27_partial",
    "C27_content",
    "C27_opacity_refuted",
    "C27_style_refuted",
    "C27_animated_refuted",
    "C27_panic_refuted",
    "C27_used_partial",
    "C27_used_refuted",
    "C27_classes_refuted"
   ],
   "note": "Refuted on the faithful model: opacity on both group and child loses one; a group's style is moved over the child's attributes; attributes are copied before an animation cancels the move; a group whose only child is an animation with a common attribute name panics; a use of the group's id can lose a transform, as the id moves to the child while the transform stays, and with a class on both the child takes the transform despite its id; a clip path in a group's style moves to a transformed child and is transformed with it. Proved for every tree: no node but groups is lost; transforms, inherited values, effects and the coordinates of clip paths, masks and filters are kept without styles, animations, resources and repeated effects."
  },
  {
   "property": "C28",
   "status": "partial",
   "theorems": [
    "C28_totals_partial",
    "C28_inherited_partial",
    "C28_rest",
    "C28_style_refuted",
    "C28_inherit_refuted",
    "C28_resource_refuted",
    "C28_placed_partial",
    "C28_filter_refuted",
    "C28_used_refuted"
   ],
   "note": "Refuted on the faithful model: a style on the group beats the attribute moved there, fill=inherit replaces the group's fill, and clip paths in one group lose their common transform; a filter in the group's style is scaled; children with an id lose attributes where a use draws them. Proved for every tree: other attributes do not change; total transforms are kept for plain transforms, inherited values when groups have no style for the property and no value is inherit or unreadable. Values are compared as written (relative font sizes are not resolved)."
  },
  {
   "property": "C40",
   "status": "partial",
   "theorems": [
    "C40_derived_partial",
    "C40_insert_fails",
    "C40_insert_refuted",
    "C40_reloaded_partial",
    "C40_tidy_partial",
    "C40_whitespace_refuted"
   ],
   "note": "Refuted on the faithful model: after an Insert action the derived state is an error; white space in arguments is squeezed by a snapshot. Proved for every sequence of other actions: in memory the same actions come back, and through snapshot and reload with squeezed texts, for documents without xml:space and with characters that survive (C10). Printing and parsing of f32 is an argument with its round trip as hypothesis; namespaces are represented by the written prefix."
  },
  {
   "property": "C41",
   "status": "partial",
   "theorems": [
    "C41_derived_partial",
    "C41_document_partial",
    "C41_deselect_refuted",
    "C41_unknown_id_refuted",
    "C41_reloaded_refuted"
   ],
   "note": "Refuted on the faithful model: after the selection was empty once, later selections never reach the document; an id that does not exist can name a later node; ids in a snapshot count white space it leaves out. Proved for every sequence of actions: the derived selection names the selected nodes by current ids (typed ids existing), and so does the document until the selection is emptied. Selector matching and tree edits are arguments."
  },
  {
   "property": "C48",
   "status": "partial",
   "theorems": [
    "C48_common_partial",
    "C48_elements",
    "C48_categories_always_all",
    "C48_categories_refuted",
    "C48_text_refuted"
   ],
   "note": "Refuted on the faithful model: permitted categories (and attribute groups) are always all; the common text is wrong for two elements. Proved for every selection: permitted elements, expected attributes, attribute values and element name are exactly those in common; no information iff a node is not an element. Printing of values does not fail in the model."
  },
  {
   "property": "C38",
   "status": "partial",
   "theorems": [
    "C38_scripts_partial",
    "C38_disabled",
    "C38_content_lost_refuted",
    "C38_scripts_left_refuted"
   ],
   "note": "Refuted on the faithful model: a link to a script with text between its elements loses the rest of its siblings; handlers missing in the tables, on elements that do not list them, urls in another case and scripts in the XHTML namespace stay. Proved for every document whose links have text only around their other children: everything else is left in order and nothing the job recognises stays."
  },
  {
   "property": "C63",
   "status": "proved",
   "theorems": [
    "C63_attribute_name_kept",
    "C63_element_name_kept",
    "C63_recognised_where_expected"
   ],
   "note": "The tables are transcribed from the sources by a script; values of attributes are left out."
  },
  {
   "property": "C49",
   "status": "partial",
   "theorems": [
    "C49_containers_partial",
    "C49_disabled",
    "C49_referenced_removed_refuted"
   ],
   "note": "Refuted on the faithful model: an empty group or marker that is referred to by id is removed. Proved for every document: exactly the hollow elements are removed, no removable empty container remains, and all other nodes stay in order. Whether a group has a filter is an argument (computed styles)."
  },
  {
   "property": "C50",
   "status": "proved",
   "theorems": [
    "C50_definitions",
    "C50_disabled"
   ],
   "note": "For every document whose nodes other than elements have no children; what is left is given exactly, with parents."
  },
  {
   "property": "C64",
   "status": "proved",
   "theorems": [
    "C64_walk_with_edits"
   ],
   "note": "Edits are removal on the way down or up and unwrapping on the way up; the flag for foreign objects is left out (see C08)."
  },
  {
   "property": "C53",
   "status": "partial",
   "theorems": [
    "C53_view_box_equal",
    "C53_view_box_taken",
    "C53_view_box_shown_partial",
    "C53_dimensions",
    "C53_dimensions_taken",
    "C53_dimensions_shown_partial",
    "C53_units",
    "C53_view_box_shown_refuted",
    "C53_dimensions_shown_refuted"
   ],
   "note": "Refuted on the faithful model: a symbol shown at another size by its use, a pattern with default patternUnits and an svg sized by CSS lose a view box that mattered; an inner svg loses its size; an unreadable view box counts as one, so the size is lost. Proved: a view box goes exactly when it is 0 0 width height, with nothing else changed, and the content then stays put for every preserveAspectRatio in plain surroundings; dimensions go only with a view box kept or made of their size, which places content the same in a viewport of that size."
  },
  {
   "property": "C52",
   "status": "partial",
   "theorems": [
    "C52_attributes",
    "C52_traced_partial",
    "C52_kept",
    "C52_round_partial",
    "C52_invisible_refuted",
    "C52_points_refuted",
    "C52_named_refuted"
   ],
   "note": "Refuted on the faithful model: a rect without width becomes a visible path, a polyline of one point is removed, points may hold path commands, an ellipse named by a selector (or any shape named inside :is or :not) is converted all the same, an ellipse with an automatic radius becomes a line, children are lost. Proved: every rect, line, polyline and polygon of two or more plain vertices becomes a path along the rounded vertices, closed exactly for rect and polygon, other attributes kept; all else is unchanged; circles and ellipses on the grid become two arcs around the centre."
  },
  {
   "property": "C39",
   "status": "partial",
   "theorems": [
    "C39_rules",
    "C39_no_rules",
    "C39_disabled",
    "C39_in_force_partial",
    "C39_in_force_refuted"
   ],
   "note": "The rule sequence is as stated, for every document (C39_rules). Refuted on the faithful model is that the same rules are in force: a media query that cannot be read is dropped and its rules apply, imports of later stylesheets or under a query are lost, and the rules of styles in foreign objects change places with later ones. Proved without these: the same rules are in force in the same order whichever queries match."
  },
  {
   "property": "C35",
   "status": "partial",
   "theorems": [
    "C35_cascade_partial",
    "C35_order_partial",
    "C35_specificity_refuted",
    "C35_selector_list_refuted",
    "C35_inline_refuted",
    "C35_inherited_refuted",
    "C35_skipped_refuted",
    "C35_error_refuted",
    "C35_order_refuted"
   ],
   "note": "Refuted on the faithful model: specificity is never compared, a selector that does not match is prefixed to the next one of its rule (or of its media block), the first of two declarations in a style attribute wins, a parent's attribute is inherited before a rule matching the parent, rules in @supports and @layer are left out, valid stylesheets end in an error, and stylesheets are collected level by level. Proved without these: a static value is what the cascade gives whichever media queries hold, no value means none whichever hold, and a dynamic value is the one when all hold; style elements directly below the root are taken in document order."
  },
  {
   "property": "C54",
   "status": "partial",
   "theorems": [
    "C54_reasons",
    "C54_definition_partial",
    "C54_used_partial",
    "C54_no_panic_partial",
    "C54_panic_refuted",
    "C54_transparent_refuted",
    "C54_display_refuted",
    "C54_clip_refuted",
    "C54_shield_refuted"
   ],
   "note": "Refuted on the faithful model: an empty href (or one starting with a character of several bytes) on a use panics; a referenced element goes with a transparent or undisplayed element around it; uses inside clip paths and other definitions do not count; references below a hidden element that is itself used do not count. Proved: for every document each removed subtree has one of the listed reasons; a definition that what is left refers to stays, and so does a hidden element that a use outside definitions refers to, unless inside something removed; no panic if every href starts with a character of one byte."
  },
  {
   "property": "C65",
   "status": "partial",
   "theorems": [
    "C65_values_partial",
    "C65_id",
    "C65_inherited",
    "C65_use_refuted",
    "C65_selector_refuted",
    "C65_rule_refuted"
   ],
   "note": "Refuted on the faithful model: an element inside a referenced one loses its default value and takes that of the use; a selector may look at the removed attribute; a value overriding a rule of the parent may be removed (C35). Proved without these: for every document and stylesheet all properties of all elements keep their values whichever media queries match; elements with an id keep all attributes; the table of inherited attributes is that of SVG."
  },
  {
   "property": "C66",
   "status": "partial",
   "theorems": [
    "C66_namespaces",
    "C66_declaration",
    "C66_data",
    "C66_aria",
    "C66_attributes_partial",
    "C66_children_partial",
    "C66_root",
    "C66_unknown_removed",
    "C66_attributes_refuted",
    "C66_children_refuted",
    "C66_discard_refuted"
   ],
   "note": "Refuted on the faithful model: mask-type, text-overflow and white-space are removed, and so are discard elements and tspan and textPath in links. Proved for all other attributes and children SVG 2 defines, and that names in no table are removed."
  },
  {
   "property": "C67",
   "status": "partial",
   "theorems": [
    "C67_id",
    "C67_defaults_partial",
    "C67_defaults_refuted"
   ],
   "note": "Refuted on the faithful model: divisor=1 of feConvolveMatrix is removed though its default is the sum of the kernel. Proved for the other attributes SVG 2 defines, where nothing is inherited, apart from the listed entries whose default value is not the one of SVG 2 but hardly ever written."
  },
  {
   "property": "C68",
   "status": "partial",
   "theorems": [
    "C68_applied_partial",
    "C68_panics",
    "C68_off",
    "C68_unused",
    "C68_panic_refuted",
    "C68_xhtml_refuted",
    "C68_position_refuted",
    "C68_script_refuted"
   ],
   "note": "Refuted on the faithful model: a style attribute that cannot be read makes the job panic (and nothing else does, proved); rules for elements of other namespaces are removed; removing an emptied style element changes which rules of others apply; javascript in xlink:href is not noticed. Proved for documents of SVG elements of which no stylesheet is emptied: for every element the same rules apply, up to what minification itself may change; with removal off or a script there rules are only minified; no selector without any part in use is left."
  },
  {
   "property": "C69",
   "status": "partial",
   "theorems": [
    "C69_groups",
    "C69_outlines",
    "C69_written",
    "C69_switch_refuted",
    "C69_length_refuted",
    "C69_stroke_refuted"
   ],
   "note": "Refuted on the faithful model: children of a switch are merged; pathLength then refers to the outlines of all; strokes are not considered when it is decided whether paths are apart. Proved for all lists of children: each path left stands for a run of neighbours with the same attributes and draws exactly their subpaths in order, each apart from those before (unless forced); everything else stays; the new data has well-formed implicit commands."
  },
  {
   "property": "C70",
   "status": "partial",
   "theorems": [
    "C70_look_partial",
    "C70_identified",
    "C70_style_refuted",
    "C70_fill_style_refuted",
    "C70_marker_start_refuted",
    "C70_marker_end_refuted",
    "C70_twice_refuted",
    "C70_remove_none_refuted",
    "C70_animation_refuted"
   ],
   "note": "Refuted on the faithful model: a paint in the style attribute appears once an opacity attribute is removed; markers change size; of two declarations the first counts; remove_none removes filled shapes; animated widths. Proved for all documents and any reading of values: shapes without these look the same (stroke, fill, markers and all other properties); elements with an id stay with all they hold."
  },
  {
   "property": "C71",
   "status": "partial",
   "theorems": [
    "C71_drawing",
    "C71_arcs_partial",
    "C71_sweep",
    "C71_sweep_similar",
    "C71_explicit",
    "C71_swap_refuted",
    "C71_turn_refuted"
   ],
   "note": "Refuted on the faithful model for arcs: the side is decided by the signs of two entries, not by the determinant, so matrix(0 1 1 0 0 0) and matrix(1 2 -2 -1 0 0) put arcs on the wrong side. Proved for all paths without arcs and all invertible matrices; with arcs, for all matrices where the signs agree with the determinant (which includes scales, shears along one axis, rotations and reflections that do not swap the axes) and new radii that are right (C72)."
  },
  {
   "property": "C72",
   "status": "partial",
   "theorems": [
    "C72_ellipse",
    "C72_radii",
    "C72_defined_partial",
    "C72_small_refuted",
    "C72_flat_refuted"
   ],
   "note": "Refuted on the faithful model: for small arcs, and arcs with a horizontal radius of 0, the rotation is 0/0. Proved over the reals: whenever there is a result it is the image, with positive radii and a rotation of at most 90 degrees; there is none only if the squares of the radii of the image differ by at most 1e-6. Axioms: those of the real numbers in Coq's standard library."
  },
  {
   "property": "C73",
   "status": "partial",
   "theorems": [
    "C73_look_partial",
    "C73_overridden",
    "C73_twice_refuted",
    "C73_media_refuted",
    "C73_panic_refuted",
    "C73_width_rule_refuted",
    "C73_inherit_refuted",
    "C73_inherit_width_refuted",
    "C73_dashes_refuted",
    "C73_path_length_refuted",
    "C73_fixed_refuted",
    "C73_gradient_refuted",
    "C73_option_refuted"
   ],
   "note": "Refuted on the faithful model: a transform in a stylesheet is applied twice or makes it panic; widths, dashes and vector-effect from stylesheets or groups, inherit, pathLength and gradients of groups are handled wrongly; the option does the opposite. Proved: without these the look is the same for every matrix. Axioms: those of the real numbers in Coq's standard library."
  },
  {
   "property": "C74",
   "status": "partial",
   "theorems": [
    "C74_look_partial",
    "C74_media",
    "C74_order_refuted",
    "C74_compound_refuted",
    "C74_combinator_refuted",
    "C74_not_refuted",
    "C74_condition_refuted",
    "C74_attribute_refuted",
    "C74_id_refuted",
    "C74_geometry_refuted",
    "C74_option_refuted"
   ],
   "note": "Refuted on the faithful model: a rule that is moved wins over rules that are left; classes and attributes that selectors which are left ask for are removed; the media attribute of style elements is not read; ids used in CSS only and attributes that only share the name of a property are lost; removeMatchedSelectors has no effect. Proved: otherwise every value is kept, and rules within at-rules stay and match as before."
  },
  {
   "property": "C75",
   "status": "partial",
   "theorems": [
    "C75_radii_partial",
    "C75_converted",
    "C75_others",
    "C75_percent_refuted",
    "C75_style_refuted",
    "C75_selector_refuted"
   ],
   "note": "Refuted on the faithful model: percentages of r refer to something else than those of rx and ry; radii given in CSS only are not looked at, so such an ellipse vanishes; rules for circles start to apply. Proved: otherwise both radii are kept, and an ellipse with equal radii is converted."
  },
  {
   "property": "C76",
   "status": "partial",
   "theorems": [
    "C76_language_partial",
    "C76_removed",
    "C76_selected_partial",
    "C76_language_refuted",
    "C76_alias_refuted",
    "C76_prefix_refuted",
    "C76_not_refuted",
    "C76_case_refuted"
   ],
   "note": "Refuted on the faithful model: xml:lang is removed where it differs from lang although it is the one that counts; svg:lang counts as lang; selectors in :not, with another prefix for the namespace, or with capital letters do not protect what they name. Proved: otherwise languages are kept, selectors match as before, and by default only version and xml:lang are removed."
  },
  {
   "property": "C77",
   "status": "partial",
   "theorems": [
    "C77_look_partial",
    "C77_declared_partial",
    "C77_unset_refuted",
    "C77_dynamic_refuted",
    "C77_opacity_refuted",
    "C77_current_refuted",
    "C77_sheet_refuted",
    "C77_chain_refuted",
    "C77_template_refuted",
    "C77_missing_refuted",
    "C77_href_refuted",
    "C77_inner_refuted",
    "C77_panic_refuted",
    "C77_declared_refuted",
    "C77_titled_refuted"
   ],
   "note": "Refuted on the faithful model: a stop without a colour of its own, or with opacity or currentColor, references from style elements, longer chains, gradients that take attributes from a removed one, missing templates, href beside xlink:href, nested svg elements (lost paint, a panic, xmlns:xlink removed while in use). Proved: otherwise, with one svg element, every paint is kept and nothing panics."
  },
  {
   "property": "C78",
   "status": "partial",
   "theorems": [
    "C78_close",
    "C78_twice",
    "C78_numeric",
    "C78_units",
    "C78_written",
    "C78_error",
    "C78_listed_partial",
    "C78_dashes_refuted",
    "C78_view_box_refuted",
    "C78_default_px_refuted"
   ],
   "note": "Refuted on the faithful model: cleanupListOfValues never rounds stroke-dasharray, a view box of a positive size may get the size zero, and defaultPx has no effect. Proved: the bound, that a second run changes nothing, that other values are rounded, units and errors. Arithmetic is exact."
  },
  {
   "property": "C79",
   "status": "partial",
   "theorems": [
    "C79_exact",
    "C79_style_partial",
    "C79_effect_partial",
    "C79_origin_refuted",
    "C79_inherit_refuted",
    "C79_useless_refuted"
   ],
   "note": "Refuted on the faithful model: transform-origin is removed from groups, which moves them; vector-effect is lost to shapes that inherit it; and the attributes the job is for stay. Proved: exactly transform-origin and vector-effect go, and every other computed value is kept."
  },
  {
   "property": "C80",
   "status": "partial",
   "theorems": [
    "C80_value",
    "C80_meaning_partial",
    "C80_condition",
    "C80_tidy",
    "C80_stays",
    "C80_all_stay",
    "C80_namespace_refuted",
    "C80_language_refuted",
    "C80_link_refuted",
    "C80_fallback_refuted",
    "C80_animation_refuted",
    "C80_boolean_refuted"
   ],
   "note": "Refuted on the faithful model: an empty xmlns, xml:lang, href, animation value or HTML boolean attribute means something. Proved: all values for which empty is an error, conditions, and the rest when none of these is empty."
  },
  {
   "property": "C81",
   "status": "partial",
   "theorems": [
    "C81_rendered",
    "C81_elements",
    "C81_comments",
    "C81_instructions",
    "C81_desc_goes",
    "C81_desc_all",
    "C81_desc_stays",
    "C81_stylesheets_partial",
    "C81_ids_partial",
    "C81_editors",
    "C81_editors_free",
    "C81_editors_declared",
    "C81_style_refuted",
    "C81_id_refuted",
    "C81_first_child_refuted",
    "C81_desc_refuted",
    "C81_given_refuted",
    "C81_doctype_refuted"
   ],
   "note": "Refuted on the faithful model: stylesheets and ids within metadata go with it, selectors may match otherwise, descriptions are removed for one of several text nodes, removeDoctype cannot be switched off, and namespaces that are given may be in use. Proved: what is drawn, comments, declarations of prefixes, and stylesheets and ids elsewhere."
  },
  {
   "property": "C82",
   "status": "partial",
   "theorems": [
    "C82_glyphs_partial",
    "C82_black_partial",
    "C82_others",
    "C82_space_refuted",
    "C82_nbsp_refuted",
    "C82_switch_refuted",
    "C82_left_refuted"
   ],
   "note": "Refuted on the faithful model: elements with white space only are removed, which joins words; the removal of the chosen child of a switch makes the next one visible; and elements that become empty are left. Proved: all other characters stay, with their elements, unless in a switch."
  },
  {
   "property": "C83",
   "status": "partial",
   "theorems": [
    "C83_apart",
    "C83_no_overlap",
    "C83_meet_partial",
    "C83_answer",
    "C83_touch_refuted",
    "C83_mouth_refuted"
   ],
   "note": "Refuted on the faithful model: paths that lie on each other along a line are said to be apart, and outlines within each other's convex hull to meet. Proved, in exact arithmetic: paths said to be apart have a line between them, those said to meet have convex hulls with a common point (for segments whose numbers of points multiply to at most 99, for which the 10000 rounds are shown to suffice), and there is always an answer. Arcs are represented by the points that the code makes of them."
  },
  {
   "property": "C84",
   "status": "partial",
   "theorems": [
    "C84_seen_partial",
    "C84_frame",
    "C84_starts",
    "C84_unknown",
    "C84_transformed",
    "C84_stroke_refuted",
    "C84_use_refuted",
    "C84_nested_refuted",
    "C84_style_refuted",
    "C84_proportion_refuted",
    "C84_closed_refuted"
   ],
   "note": "Refuted on the faithful model: paths whose stroke reaches onto the canvas, that are used elsewhere, that are in an inner svg, that have a transform in style, or that are beside the view box of a viewport with other proportions are removed, and a path of two commands that stays is closed. Proved: without these, no segment of a removed path has a point in the view box; nothing else changes."
  },
  {
   "property": "C85",
   "status": "partial",
   "theorems": [
    "C85_value_partial",
    "C85_attributes",
    "C85_rest",
    "C85_important",
    "C85_stay",
    "C85_sheet_refuted",
    "C85_important_refuted",
    "C85_font_refuted",
    "C85_marker_refuted",
    "C85_animate_refuted"
   ],
   "note": "Refuted on the faithful model: any rule of a stylesheet beats the attribute where it did not beat the declaration, also where that was important; font and marker are no presentation attributes and lose their effect; fill of animations is overwritten. Proved: a property about which stylesheets say nothing and that is not declared with a shorthand keeps its value."
  },
  {
   "property": "C86",
   "status": "partial",
   "theorems": [
    "C86_same",
    "C86_order",
    "C86_predictable",
    "C86_idempotent",
    "C86_listed_partial",
    "C86_named",
    "C86_front",
    "C86_hyphen_refuted"
   ],
   "note": "Refuted on the faithful model for names with a hyphen in the list, which have no effect. Proved for all others, and everything else that is claimed."
  },
  {
   "property": "C87",
   "status": "partial",
   "theorems": [
    "C87_same",
    "C87_refers_partial",
    "C87_stable",
    "C87_frequent",
    "C87_elements",
    "C87_idempotent_partial",
    "C87_order_refuted",
    "C87_comments_refuted",
    "C87_refers_refuted"
   ],
   "note": "Refuted on the faithful model: text and comments are compared by what is no order, so that they are reversed by every run (and the standard library may panic with more than twenty children), and with an id twice another element comes first. Proved: all children stay; for ids that are unique, references find the same; elements of one name keep their order."
  },
  {
   "property": "C88",
   "status": "partial",
   "theorems": [
    "C88_goes",
    "C88_stays_partial",
    "C88_current_partial",
    "C88_order",
    "C88_error",
    "C88_alternatives_refuted",
    "C88_current_refuted"
   ],
   "note": "Refuted on the faithful model: alternatives outside parentheses are anchored at one side only, so that fill|stroke removes fill-opacity, and currentColor is preserved for fill and stroke only. Proved: everything that a pattern says is removed, and for parts without such alternatives nothing else."
  },
  {
   "property": "C89",
   "status": "partial",
   "theorems": [
    "C89_one_picture",
    "C89_same_partial",
    "C89_nothing",
    "C89_off",
    "C89_lost_refuted",
    "C89_referred_refuted",
    "C89_style_refuted",
    "C89_shift_refuted",
    "C89_name_refuted",
    "C89_nested_refuted",
    "C89_children_refuted",
    "C89_prefix_refuted"
   ],
   "note": "Refuted on the faithful model: paths within a group in defs are lost, references to the first path lose its transformation, style loses to the moved attribute, x and y become effective, the new ids may be taken, in nested svg all paths may vanish, children of paths are lost and the xlink prefix is unbound on the uses. Proved: for documents with one svg, plain paths outside of defs to which nothing refers and free ids, the picture is the same."
  },
  {
   "property": "C90",
   "status": "partial",
   "theorems": [
    "C90_safe_partial",
    "C90_unite_partial",
    "C90_asked",
    "C90_used_partial",
    "C90_cap_refuted",
    "C90_nonzero_refuted",
    "C90_square_refuted",
    "C90_use_refuted"
   ],
   "note": "Refuted on the faithful model: a linecap set under a condition is taken as butt, segments are united for nonzero, segments with square caps are not closed and what a use passes on is not seen. Proved: with a static linecap everything else that is applied is safe for all ways to draw the path and nothing is applied that was not asked for; what is safe and asked for is applied but for closing and uniting. ComputedStyles is an input."
  },
  {
   "property": "C91",
   "status": "partial",
   "theorems": [
    "C91_straight_partial",
    "C91_noop_partial",
    "C91_join_partial",
    "C91_closeline",
    "C91_empty",
    "C91_close",
    "C91_lines",
    "C91_loop_refuted",
    "C91_overshoot_refuted",
    "C91_steps_refuted",
    "C91_corner_refuted",
    "C91_closed_refuted"
   ],
   "note": "Refuted on the faithful model: a closed loop of one curve vanishes, controls beyond the ends of a line are cut off, chains of small steps of any length vanish, corners of short lines are cut, and open stroked paths with round caps are closed. Proved: straightening keeps tame curves within the tolerance plus anything; removal of commands moves by the tolerance per removed command in a row; joining is exact for lines on a coarse grid and within the tolerance per curve; closing and the removal of closing lines keep the fill; all passes together keep paths of lines on a coarse grid. Arcs (arc_curves, straight and joined arcs) are not modelled; the ratio of the joined curves is any number from 0 to 1."
  },
  {
   "property": "C92",
   "status": "partial",
   "theorems": [
    "C92_words",
    "C92_tokens_partial",
    "C92_twice",
    "C92_glyph_refuted",
    "C92_code_refuted",
    "C92_nbsp_refuted",
    "C92_namespace_refuted"
   ],
   "note": "Refuted on the faithful model: a glyph for a space is lost, code after a // comment is lost, spaces that do not break become plain and names of namespaces are trimmed. Proved: structure, names, order and values of other types stay; words stay; tokens stay for values whose white space is that of XML; a second run changes nothing. Which values fail to parse, and are then text, is an input."
  },
  {
   "property": "C93",
   "status": "partial",
   "theorems": [
    "C93_accepted_partial",
    "C93_reported",
    "C93_off",
    "C93_has_scripts_partial",
    "C93_handler_refuted",
    "C93_link_refuted",
    "C93_external_refuted",
    "C93_default_refuted"
   ],
   "note": "Refuted on the faithful model: handlers missing from the table, xlink links to scripts and schemes in another case are not seen; every xlink reference counts as external and no plain one does; with another default namespace events of prefixed elements are missed. Proved: for documents whose default namespace is SVG or none, what is accepted and what counts as scripted is exactly as far as the table goes; reasons are true; off accepts all."
  },
  {
   "property": "C94",
   "status": "partial",
   "theorems": [
    "C94_raster_partial",
    "C94_by_attr_partial",
    "C94_style",
    "C94_cut_unique",
    "C94_off",
    "C94_kept_refuted",
    "C94_vector_refuted",
    "C94_quote_refuted",
    "C94_root_refuted"
   ],
   "note": "Refuted on the faithful model: images with a plain href or an upper-case extension are kept, a vector image on www.gifs.org is removed, quotes break classes and the root can be removed. Proved: what is removed is exactly the elements with the substrings in their xlink link, with the id or class as read, or the style elements, with their content and nothing else; nothing asked for changes nothing."
  },
  {
   "property": "C95",
   "status": "partial",
   "theorems": [
    "C95_spelling_partial",
    "C95_kept",
    "C95_html",
    "C95_apart_partial",
    "C95_chars",
    "C95_data_refuted",
    "C95_prefix_refuted",
    "C95_clash_refuted",
    "C95_unlisted_refuted"
   ],
   "note": "Refuted on the faithful model: data attributes, attributes with another prefix than the usual one and some known ones on elements that do not list them are dropped, and class and className of one element clash. Proved: what React makes of the names of the table, what is kept, that names of the table are apart, and that all names consist of letters, digits and hyphens."
  },
  {
   "property": "C96",
   "status": "partial",
   "theorems": [
    "C96_tree_partial",
    "C96_closed",
    "C96_words",
    "C96_braces_refuted",
    "C96_style_refuted",
    "C96_space_refuted",
    "C96_pi_refuted",
    "C96_prefix_refuted",
    "C96_important_refuted",
    "C96_adjacent_refuted"
   ],
   "note": "Refuted on the faithful model: braces and angle brackets in text are not escaped, style sheets with braces break, a space between text and a tspan is lost, processing instructions become text, prefixed elements are dropped, important declarations are lost. Proved: documents without these render to what they show; all tags are closed; the words of each text stay. How swc prints strings and numbers is not modelled."
  },
  {
   "property": "C97",
   "status": "partial",
   "theorems": [
    "C97_component_partial",
    "C97_off",
    "C97_succeeds",
    "C97_needs",
    "C97_replace_partial",
    "C97_native_names",
    "C97_native_closed_partial",
    "C97_dimensions_refuted",
    "C97_label_refuted",
    "C97_nested_refuted",
    "C97_order_refuted",
    "C97_number_refuted",
    "C97_twice_refuted",
    "C97_prefix_refuted",
    "C97_native_closed_refuted",
    "C97_native_title_refuted"
   ],
   "note": "Refuted on the faithful model: a width of svgProps is dropped with that of the document, a label of the document is lost, the title of a group is replaced instead of adding one, replacements depend on the order of a hash map and miss numbers, a prefixed root is refused, and for react-native groups are left unclosed and titles of the document removed. Proved for the web without replacements: the rendered component is the document with exactly the changes that the options name; for replacements that do not chain: each value is replaced as the map says; for react-native: imports are the components used."
  },
  {
   "property": "C98",
   "status": "partial",
   "theorems": [
    "C98_scope_partial",
    "C98_params",
    "C98_types_partial",
    "C98_once_partial",
    "C98_export_partial",
    "C98_imports_partial",
    "C98_total_partial",
    "C98_types_refuted",
    "C98_ref_type_refuted",
    "C98_once_refuted",
    "C98_svg_refuted",
    "C98_imports_refuted",
    "C98_preact_refuted",
    "C98_panic_refuted",
    "C98_scope_refuted"
   ],
   "note": "Refuted on the faithful model: with TypeScript the interface of the properties or the type Ref can be missing, components called Memo or SVG clash, a namespace from another source gives a broken import, Preact gets memo from the wrong package, a description as root panics and elements with a capital become missing components. Proved outside these: names and types are in scope, declared once, imports are allowed, the export is the component in exactly the wrappers asked for, and an svg root always gives a module. The optimiser that can run first, templates of the user and swc's printer are not modelled."
  },
  {
   "property": "C99",
   "status": "partial",
   "theorems": [
    "C99_match_partial",
    "C99_select_partial",
    "C99_capitals_refuted",
    "C99_view_box_refuted",
    "C99_value_refuted",
    "C99_case_refuted",
    "C99_namespace_refuted",
    "C99_empty_refuted",
    "C99_link_refuted"
   ],
   "note": "Refuted on the faithful model: names with capitals (linearGradient, viewBox) are never found since every element claims to be HTML, values are compared as they would be printed, the values of lang, type and others without case, [*|href] misses xlink:href, comments make an element not :empty, and one pseudo-class of links spoils the list. Proved outside these, for documents with recognised ids and classes: matching and searching are what CSS says. The reading of selectors from text and the crate selectors itself are not in /repo; its algorithm is modelled from its documented behaviour."
  },
  {
   "property": "C100",
   "status": "partial",
   "theorems": [
    "C100_match_partial",
    "C100_select_partial",
    "C100_count_refuted",
    "C100_scope_refuted"
   ],
   "note": "Refuted on the faithful model: opaque gives the address of the temporary wrapper (selectors.rs:347-349); when wrappers lie at the same address rect:nth-child(2) also finds the third child, and when the scope's wrapper lay elsewhere :scope > g finds nothing. Proved: if addresses tell elements apart and the scope's is its own, counting with the shared cache is what CSS says. Addresses are a parameter that depends on the element only."
  },
  {
   "property": "C101",
   "status": "partial",
   "theorems": [
    "C101_removed_partial",
    "C101_fails",
    "C101_order_refuted",
    "C101_alias_refuted",
    "C101_half_refuted"
   ],
   "note": "Refuted on the faithful model: elements are matched after others have lost attributes, so that an element that was not selected changes; an attribute under another prefix is only found under the usual prefix; a later selector that cannot be read leaves the changes of the items before. Proved: for selectors that do not look at the removed attributes above or beside (local_only) and documents with the usual prefixes, each item removes exactly what it says; the job fails exactly if a selector cannot be read."
  },
  {
   "property": "C102",
   "status": "partial",
   "theorems": [
    "C102_attributes_partial",
    "C102_classes_partial",
    "C102_elsewhere",
    "C102_xmlns",
    "C102_xmlns_none",
    "C102_colons_refuted",
    "C102_added_refuted",
    "C102_no_class_refuted",
    "C102_replaced_refuted",
    "C102_class_panic_refuted"
   ],
   "note": "Refuted on the faithful model: a name with two colons panics, an undeclared prefix makes x:id the same as id, an svg without a class attribute gets no classes, className replaces the classes, and a class attribute under a prefix for SVG panics. Proved: names without a colon are added exactly if missing, classNames are added to the classes that are there, removeXMLNS removes the one declaration."
  },
  {
   "property": "C103",
   "status": "partial",
   "theorems": [
    "C103_no_filter",
    "C103_filter",
    "C103_effect_partial",
    "C103_twice",
    "C103_disabled",
    "C103_style_refuted",
    "C103_shifted_refuted"
   ],
   "note": "Refuted on the faithful model: with a filter present, `enable-background: new` in a style attribute is removed though it is not an area of the whole element, and x and y of an area are not looked at, so that `new 5 5 100 100` on a 100 by 100 svg is removed. Proved: exactly which attributes and declarations go or are shortened, with and without a filter; the effect is kept where enable-background stands in attributes only and areas start at the origin; idempotence; switched off it is the identity."
  },
  {
   "property": "C104",
   "status": "partial",
   "theorems": [
    "C104_converted_partial",
    "C104_masks_partial",
    "C104_default",
    "C104_twice",
    "C104_inherit_refuted",
    "C104_fallback_refuted"
   ],
   "note": "Refuted on the faithful model: what a mask inherits from outside changes with it, and the fallback colour after url(\u2026) in an attribute is not converted. Proved: outside masks, without such fallbacks, every colour becomes currentcolor and nothing else changes; inside masks every value that is set inside stays; default method and idempotence. Style sheets are not modelled."
  },
  {
   "property": "C105",
   "status": "partial",
   "theorems": [
    "C105_names_partial",
    "C105_panic_refuted",
    "C105_duplicate_refuted",
    "C105_prefixed_root_refuted",
    "C105_rebound_attributes_refuted",
    "C105_rebound_elements_refuted",
    "C105_no_namespace_refuted"
   ],
   "note": "Refuted on the faithful model: xml: attributes below a root with few attributes panic, another default namespace puts xmlns twice on the root, a prefixed root declares the prefix xmlns, a rebound prefix is declared twice or resolves to the last namespace, elements in no namespace become SVG. Proved: with one namespace for each prefix, an unprefixed root, and xml: on the root if anywhere, the tree is the one read with declarations added to the root, all names resolve, no attribute occurs twice."
  },
  {
   "property": "C106",
   "status": "partial",
   "theorems": [
    "C106_shows",
    "C106_marks_partial",
    "C106_element_partial",
    "C106_panics",
    "C106_result",
    "C106_panic_refuted",
    "C106_empty_value_refuted",
    "C106_empty_tag_refuted",
    "C106_not_ascii_refuted",
    "C106_many_lines_refuted"
   ],
   "note": "Refuted on the faithful model: a range at the last byte of the file panics, an empty value may be reported on the line of the next attribute, `<foo/>` is marked with its slash, columns are counted in bytes, and only the first line of a range is shown. Proved: the line shown and its number for every range, the mark under ASCII ranges within a line, the mark of element names, exactly when reading panics, and the result of the command."
  },
  {
   "property": "C107",
   "status": "partial",
   "theorems": [
    "C107_severity",
    "C107_clean_partial",
    "C107_unknown_attribute",
    "C107_unknown_child",
    "C107_xlink",
    "C107_invalid_partial",
    "C107_dropped_partial",
    "C107_off",
    "C107_declarations",
    "C107_show",
    "C107_default_refuted",
    "C107_divisor_refuted",
    "C107_attributes_refuted",
    "C107_data_refuted",
    "C107_dropped_refuted",
    "C107_prefix_refuted",
    "C107_invalid_refuted"
   ],
   "note": "Refuted on the faithful model: a value equal to the initial one is reported as one that can be left out even where another is inherited (stroke-width=\"1\" in a group with stroke-width=\"5\"), divisor=\"1\" too; mask-type and all data attributes are reported as unknown; animateColor and four other dropped elements are not reported, nor any with another prefix; invalid values of attributes with another prefix are not reported. Proved: severities and independence of the rules; no report on elements of SVG 2 with fine attributes in a place they may have; unknown attributes and children, XLink attributes (exactly), invalid values and the other dropped elements are reported."
  },
  {
   "property": "C108",
   "status": "partial",
   "theorems": [
    "C108_read_partial",
    "C108_print_partial",
    "C108_round_trip_partial",
    "C108_dur_partial",
    "C108_min_max_partial",
    "C108_reference_partial",
    "C108_hyphen_refuted",
    "C108_sign_refuted",
    "C108_wrap_refuted",
    "C108_dangling_refuted",
    "C108_panic_refuted"
   ],
   "note": "Refuted on the faithful model: `my-id.begin` is not read (though `my-id.begin-5s` is), `a.begin-0:05` is printed as `a.begin+00:05`, `repeat(3000000000)` becomes repeat(-1294967296), `repeat(1)-` is accepted without its last character, and a name that begins outside ASCII panics. Proved for identifiers and events without hyphens that begin in ASCII, counts of 32 bits, and offsets after a name with one minus sign at most: every spelling is read as its value, printing gives one of them, and both together are the identity."
  },
  {
   "property": "C109",
   "status": "partial",
   "theorems": [
    "C109_keywords_partial",
    "C109_only",
    "C109_round_trip_partial",
    "C109_true_false",
    "C109_true_false_undefined",
    "C109_aspect_partial",
    "C109_aspect_print_partial",
    "C109_in_partial",
    "C109_frame",
    "C109_window_partial",
    "C109_srgb",
    "C109_profile_partial",
    "C109_boolean",
    "C109_sources",
    "C109_rotate_print",
    "C109_profile_print_partial",
    "C109_view_box_partial",
    "C109_control_point_partial",
    "C109_four_print",
    "C109_pair_partial",
    "C109_pair_print",
    "C109_rotate_partial",
    "C109_newer",
    "C109_newer_refuted",
    "C109_additions_refuted",
    "C109_in_refuted",
    "C109_defer_refuted",
    "C109_commas_refuted",
    "C109_panic_refuted",
    "C109_window_refuted"
   ],
   "note": "Refuted on the faithful model: keywords of CSS Inline Layout (alignment-baseline=\"text-top\") and of ARIA's Graphics Module (role=\"graphics-symbol\") are not read, the variant AdditionsText prints a text that is not read as it, `SourceGraphic ` with white space after it is not read, nor is SVG 1.1's `defer`, `1,,2 3 4` is taken as a view box, a link target `_top level` is an error, and a value that begins outside ASCII panics. Proved: for the other tables, exactly the keywords of the specification are read, and printed as they were; every spelling of the compound values is read as its value (numbers without a dot at the end; names without a keyword at their beginning; filter inputs without white space after them) and printing gives one of the spellings."
  },
  {
   "property": "C110",
   "status": "partial",
   "theorems": [
    "C110_written_partial",
    "C110_untouched",
    "C110_failed",
    "C110_printed",
    "C110_stdin",
    "C110_in_place_refuted",
    "C110_into_directory_refuted",
    "C110_several_refuted",
    "C110_order_refuted",
    "C110_dot_refuted"
   ],
   "note": "Refuted on the faithful model: `-o` without a value, documented to use the input, prints; a file with an existing directory as output gives an error; of several paths with one output what one becomes is lost; with an output below the path the result depends on the order of threads; `.` as the path reads standard input when that is not a terminal. Proved: for one path and an output apart from the inputs (or equal to the path), every chosen document is at its place, nothing else changes, failing documents change nothing; without output, the printed documents are exactly the chosen ones; standard input."
  },
  {
   "property": "C111",
   "status": "partial",
   "theorems": [
    "C111_format_status",
    "C111_reported",
    "C111_quiet",
    "C111_same",
    "C111_status_refuted",
    "C111_lint_refuted",
    "C111_silent_refuted"
   ],
   "note": "Refuted on the faithful model: optimise and action succeed though documents fail (action sets a flag that is never read), lint check succeeds whatever it finds and ignores --level, a path that does not exist and a document that is not UTF-8 are passed over without a word. Proved: format succeeds exactly when nothing was reported, documents that fail, break or may not be written are reported, others are not, and format does to files what optimise does without jobs."
  },
  {
   "property": "C112",
   "status": "partial",
   "theorems": [
    "C112_read",
    "C112_numbers_partial",
    "C112_list",
    "C112_documented_refuted",
    "C112_left_out_refuted",
    "C112_panic_refuted"
   ],
   "note": "Refuted on the faithful model: the documented example with -delete is refused, an argument that was left out makes the action take the name of the next (`-select -deselect`), and a word such as `\u00e9.` where a number may be panics. Proved: words are accepted exactly when they spell actions, and read as those (numbers being what the reader of numbers takes, which includes every SVG number without a dot at its end); action list describes exactly the named ones."
  },
  {
   "property": "C113",
   "status": "partial",
   "theorems": [
    "C113_words_partial",
    "C113_joined",
    "C113_component_partial",
    "C113_identifier_partial",
    "C113_document",
    "C113_index",
    "C113_name_refuted",
    "C113_unique_refuted",
    "C113_again_refuted",
    "C113_no_index_refuted",
    "C113_stdout_refuted",
    "C113_failed_refuted"
   ],
   "note": "Refuted on the faithful model: names that begin with a digit give names without a capital (`1icon`) or reserved words (`2new`), names without ASCII letters give the empty name, two files of a directory can get the same name and the index exports it twice, running again adds the lines again, --no-index changes nothing, without -o components are written beside the documents and not printed, and a document that cannot be transformed empties the component that was there. Proved: otherwise names are the words with capitals, valid as components; a document that goes well gets its file and its line and changes nothing else; the index gets a line for each document in order."
  },
  {
   "property": "C114",
   "status": "partial",
   "theorems": [
    "C114_points",
    "C114_halves",
    "C114_reverse",
    "C114_part",
    "C114_part_made",
    "C114_place",
    "C114_cut",
    "C114_quadratic",
    "C114_quadratic_near",
    "C114_steps",
    "C114_lines",
    "C114_place_refuted",
    "C114_cut_refuted",
    "C114_count_refuted",
    "C114_loop_refuted",
    "C114_far_refuted"
   ],
   "note": "Refuted on the faithful model: the place of a point that is on the curve may not be found, cutting out between two points in the other order fails a debug assertion, the iterator yields one point more than its length, a curve that ends where it starts gives its start alone, and neighbouring points may be far from each other. Proved: points, division, reverse, parts, quadratic curves and back, the distance to a curve that passes for quadratic, soundness of the place found, and that the points along a curve are those at n equal steps, n a power of two up to 128."
  },
  {
   "property": "C115",
   "status": "partial",
   "theorems": [
    "C115_flattened_partial",
    "C115_registry_partial",
    "C115_matched_partial",
    "C115_ring_partial",
    "C115_panic_partial",
    "C115_result_partial",
    "C115_panic_refuted",
    "C115_loop_refuted",
    "C115_closing_refuted"
   ],
   "note": "Refuted on the faithful model: a ring whose points are on the contours of the paths makes the operation panic, a path that is one closed curve becomes a polygon without an inside, and the edge from the last point of a ring to its first is never given back as the curve it was. Proved for lines and curves, any polygon operation, rounding and comparison: what is flattened and kept, that edges are taken only for pieces along which they go, that each ring becomes one closed segment that follows it, and that a panic means a point near a contour whose place on the curve is not found."
  },
  {
   "property": "C116",
   "status": "proved",
   "theorems": [
    "C116_around",
    "C116_corners",
    "C116_contains",
    "C116_intersects",
    "C116_intersection",
    "C116_clamp"
   ],
   "note": "Coordinates are rational numbers; from_coords of no points is a box of NaN in the code and None in the model."
  },
  {
   "property": "C117",
   "status": "partial",
   "theorems": [
    "C117_problems_partial",
    "C117_once_partial",
    "C117_goes_on_partial",
    "C117_places_partial",
    "C117_stale_refuted",
    "C117_stale_always_partial",
    "C117_places_refuted",
    "C117_requests_refuted"
   ],
   "note": "Refuted on the faithful model: diagnostics stay on the screen when a text is put right, when it cannot be read any more and when the document is closed; columns are bytes and not units of UTF-16, and carriage returns alone do not end lines; requests for diagnostics are advertised and not answered. Proved: when the present text has problems exactly these are shown, what is shown was once true, the server does not end, lines are right, and columns are exactly when the line is ASCII up to there."
  },
  {
   "property": "C118",
   "status": "partial",
   "theorems": [
    "C118_same",
    "C118_symmetric",
    "C118_alarm_partial",
    "C118_missed_partial",
    "C118_reported_partial",
    "C118_alarm_refuted",
    "C118_missed_refuted",
    "C118_undrawn_refuted"
   ],
   "note": "Refuted on the faithful model: pictures of any size that differ in 1.6 per cent of the pixels and are reported, and others with 3.1 per cent of the pixels apart that are not; an output that cannot be drawn is not reported. Proved: equal pictures, symmetry, no alarm up to 8/7 per cent, an alarm above 8 per cent, and what is reported."
  },
  {
   "property": "C119",
   "status": "partial",
   "theorems": [
    "C119_written_partial",
    "C119_status_partial",
    "C119_png_refuted"
   ],
   "note": "Refuted on the faithful model: what is written are the bytes of the pixels, which are never a PNG. Proved: which file is written for a document, and that the command succeeds exactly when there is one for each."
  },
  {
   "property": "C120",
   "status": "partial",
   "theorems": [
    "C120_parsed_partial",
    "C120_tiny_refuted",
    "C120_parts",
    "C120_clamped",
    "C120_reversed",
    "C120_kept",
    "C120_ends",
    "C120_place_sound",
    "C120_place_complete"
   ],
   "note": "Refuted on the faithful model: radii under 1/100000 that are not zero make a line, where SVG makes them larger and draws half an ellipse. Proved: all other commands give the arc of SVG with its end kept; cutting, restricting and turning round; soundness of places for every point, and that each point of an arc of at most a turn is found, at its own parameter when it is less than a turn. Numbers are reals."
  },
  {
   "property": "C121",
   "status": "partial",
   "theorems": [
    "C121_exact_partial",
    "C121_half_partial",
    "C121_read",
    "C121_moved_refuted",
    "C121_endless_refuted"
   ],
   "note": "Refuted on the faithful model: an arc of a little less than half a turn is written as one of half a turn if the radii agree within tolerance, and its middle then moves by 190 times the tolerance; the loop that halves the radii never ends if both radii are rounded to zero at the precision. Proved: other arcs are written exactly, and are drawn and read as the same arc; the arcs that are made simple are drawn as half ellipses with radii within the tolerance and the same ends and direction, and the loop ends if a radius is at least half a unit of the precision. Numbers are reals."
  },
  {
   "property": "C122",
   "status": "partial",
   "theorems": [
    "C122_only",
    "C122_done",
    "C122_attr",
    "C122_transform_partial",
    "C122_class_partial",
    "C122_style_partial",
    "C122_important_partial",
    "C122_unimportant",
    "C122_twice_refuted",
    "C122_foreign_refuted",
    "C122_overwritten_refuted",
    "C122_panic_refuted",
    "C122_important_refuted"
   ],
   "note": "Refuted on the faithful model: an element selected again by select_more is changed twice, so that a class is toggled back and a transform is there twice; elements without a transform attribute and elements that are not of SVG get one; a transform that could not be read is overwritten; a name with two colons ends the program; marks of importance with a blank or capitals are not seen. Proved: nothing but the attribute of selected elements changes; the attribute, class, style and transform come out as said for each element that is selected once and whose attribute was read; the action ends unless the name has two colons or the declaration cannot be read. Reading of attribute values and declarations is any function."
  },
  {
   "property": "C123",
   "status": "partial",
   "theorems": [
    "C123_insert_partial",
    "C123_name",
    "C123_plain_name",
    "C123_merge_partial",
    "C123_nothing",
    "C123_content_refuted",
    "C123_prefix_refuted",
    "C123_twice_refuted",
    "C123_lost_refuted",
    "C123_order_refuted",
    "C123_alone_refuted",
    "C123_rule_refuted"
   ],
   "note": "Refuted on the faithful model: content is not checked, so that a rect gets a rect; a prefix need not be declared; an element selected twice gets two children; a path selected twice is lost; the path that stays is the last in the order of selection, not the front-most; a path alone is filled by evenodd with its data unchanged; a fill rule in the style attribute beats the new one. Proved: the new elements and their places, the names, the result of merging, what is taken out and that nothing else changes, for every selection; nothing changes without paths. The fill rule of a path is assumed not to depend on the children lists of its detached siblings."
  },
  {
   "property": "C124",
   "status": "partial",
   "theorems": [
    "C124_file_partial",
    "C124_missing",
    "C124_preset_partial",
    "C124_found_partial",
    "C124_lint_partial",
    "C124_jsx_partial",
    "C124_jsx_options_partial",
    "C124_panics_partial",
    "C124_unconcerned_partial",
    "C124_print_partial",
    "C124_lint_refuted",
    "C124_jsx_refuted",
    "C124_broken_refuted",
    "C124_print_refuted",
    "C124_print_preset_refuted",
    "C124_homeless_refuted"
   ],
   "note": "Refuted on the faithful model: `lint check`, `lint serve` and `jsx` ignore the configuration file they are given, `jsx` also the preset; a broken file in the current directory makes every command panic, with another file given as well; without a home directory every command panics; the rules that are printed without a configuration are not those that are used, and the jobs that are printed are not those of a preset that is given. Proved: `optimise` runs with the file, preset or found configuration in that order, and reports a file that cannot be read; the other commands use the found configuration; what is printed has the jobs, and the rules if there are some; commands panic only because of a found file. Jobs omitted without a preset are left out (C36)."
  },
  {
   "property": "C125",
   "status": "partial",
   "theorems": [
    "C125_fill",
    "C125_always",
    "C125_one",
    "C125_plain",
    "C125_short_refuted",
    "C125_setter_refuted",
    "C125_name_refuted"
   ],
   "note": "Refuted on the faithful model: the short form `{ $jsx }` and the parameter of a setter are left as they are; a component named like a placeholder would be filled in twice (no file name gives one, C113). Proved for all templates and names without a dollar sign: what comes out is exactly what the places that are visited ask for, there always is a result, and a template without placeholders is kept."
  },
  {
   "property": "C126",
   "status": "partial",
   "theorems": [
    "C126_height_partial",
    "C126_height_refuted",
    "C126_ends",
    "C126_direction"
   ],
   "note": "Refuted on the faithful model: the height of an arc larger than half a circle is taken to be its radius, so the height changes by 400 times the tolerance. Proved: for arcs of circles up to half a circle, whose radii are not replaced before (C121), the height over the chord changes by less than the tolerance; for all arcs the ends are as stated. Over the reals. Not covered: the height of arcs of ellipses whose radii differ by less than the tolerance."
  },
  {
   "property": "C127",
   "status": "partial",
   "theorems": [
    "C127_line_partial",
    "C127_loop_refuted",
    "C127_thin_refuted"
   ],
   "note": "Refuted on the faithful model: an almost closed circle, the ends of which are nearer than the tolerance over twice the radius, counts as straight, and so does an arc of an ellipse with one radius below the tolerance, however far it reaches. Proved over the reals for all arcs with both radii of at least the tolerance and ends at least one unit apart: all of the arc is within the tolerance of the line through its ends."
  },
  {
   "property": "C128",
   "status": "partial",
   "theorems": [
    "C128_joined_partial",
    "C128_whole_partial",
    "C128_back_refuted",
    "C128_turn_refuted"
   ],
   "note": "Refuted on the faithful model: an arc that goes back over the one before is joined with it too, and a quarter circle there and back becomes a whole circle; arcs of more than a turn together become two halves, the last of which is given the end of the second arc, half a turn away from its own. Proved over the reals, for arcs of the same ellipse in the same direction, that are circles or differ from one by at least the tolerance: up to a turn the result runs over both arcs exactly, and close to a turn over the whole ellipse. Not covered: arcs of ellipses that differ, which are joined within several tolerances (the conditions are modelled)."
  },
  {
   "property": "C129",
   "status": "proved",
   "theorems": [
    "C129_written"
   ],
   "note": "For every text that is read: the written words are a permutation of the words read, and reading what is written gives the same value. The writers of the families put nothing between words; that two words of a family are never read (C130) is what makes the theorem hold."
  },
  {
   "property": "C130",
   "status": "partial",
   "theorems": [
    "C130_family_refuted",
    "C130_order_refuted",
    "C130_turn_partial"
   ],
   "note": "Refuted on the faithful model: two words of one family, such as `common-ligatures discretionary-ligatures`, are not read, nor is `small-caps common-ligatures`, which is read the other way round. Proved: ASCII texts with at most one word of each family, in the order of the families, with any white space, are read, and with all of their words."
  },
  {
   "property": "C131",
   "status": "partial",
   "theorems": [
    "C131_units_refuted",
    "C131_auto_refuted",
    "C131_read_partial",
    "C131_written",
    "C131_back"
   ],
   "note": "Refuted on the faithful model: sides with a unit (`rect(1px,2px,3px,4px)`) or `auto` as a side are not read. Proved: `auto` and rectangles of plain numbers are read as they are meant, and what is written for a clip means it and is read as it. The printer of numbers is a parameter, which must print numbers that are read as themselves (C109 has the same hypothesis)."
  },
  {
   "property": "C132",
   "status": "proved",
   "theorems": [
    "C132_read",
    "C132_only",
    "C132_whole",
    "C132_back"
   ],
   "note": "Reading accepts all texts of the language with the white space of XML, and only these with the white space of Unicode; what is read is a permutation of the three steps; what is written for any permutation means it and is read as it."
  },
  {
   "property": "C133",
   "status": "partial",
   "theorems": [
    "C133_kilohertz_refuted",
    "C133_written_refuted",
    "C133_hertz_partial",
    "C133_frequency_back",
    "C133_count",
    "C133_count_positive",
    "C133_count_back",
    "C133_adjust",
    "C133_adjust_back"
   ],
   "note": "Refuted on the faithful model: `1kHz`, as SVG 1.1 (4.2) writes it, is not read, and `1KHz`, which is written, is no text of the language. Proved: hertz are read, frequencies are read as they are written, numbers of repetitions and size adjustments are read as they are meant and written so that they are read again, and a number of repetitions that is read is above zero."
  },
  {
   "property": "C134",
   "status": "partial",
   "theorems": [
    "C134_scale_refuted",
    "C134_flat",
    "C134_back_partial",
    "C134_forth",
    "C134_round_trip"
   ],
   "note": "Refuted on the faithful model: `scaleX(2)` of a style becomes `scale(2,0)`, which moves all points onto one line. Proved: lists without scaleX that are converted keep their effect, lists of attributes keep theirs in styles, and those with matrices come back with the same effect. The matrices of the library for CSS are an argument, which must do what the transforms do. Numbers are real numbers, without the machine's rounding."
  }
 ]
}
