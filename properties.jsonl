{"id": "C01", "title": "Structural edits keep the document a consistent forest and act as list edits", "statement": "Start from any well-formed set of trees and apply any sequence of the public structural edits remove, insert_before, insert_after, append, before, after, replace_with/replace_child, flatten (with arguments that respect the documented roles: the reference node is a child of the receiver, the moved node is not an ancestor of the receiver and not the reference itself). After every step parent, previous/next sibling and first/last child agree with each other, and each edit changes exactly the child lists the DOM specification says it changes (the moved node leaves its old parent, appears at the requested position, all other child lists are untouched).", "quantifier": "every well-formed forest of any size and every finite sequence of edits", "why_tests_cant": "The links are a five-pointer mutable graph; a stale pointer shows up only after a later edit on a particular shape, so example trees cannot exclude all histories.", "anchors": ["crates/oxvg_ast/src/node.rs: Node::remove, Node::insert_before, Node::insert_after, Node::replace_child", "crates/oxvg_ast/src/element.rs: Element::append, Element::before, Element::after, Element::replace_with, Element::flatten"]}
{"id": "C02", "title": "Child iteration yields every child once, from either end and mixed", "statement": "For a well-formed node, iterating child nodes yields exactly its children in document order; iterating backwards yields them in reverse; and for any interleaving of taking from the front and taking from the back, the front items followed by the reversed back items are exactly the child list, each child once, after which the iterator stays exhausted. The count, nth-child and child-index queries agree with that list.", "quantifier": "every well-formed node with any number of children and every interleaving of next/next_back calls", "why_tests_cant": "The iterator keeps four cursors and an exhaustion test; the meeting point depends on the parity and the schedule of front/back calls.", "anchors": ["crates/oxvg_ast/src/node.rs: ChildNodes::next, ChildNodes::next_back, Node::child_nodes_iter, Node::item, Node::child_index, Node::child_node_count"]}
{"id": "C03", "title": "Filtering children keeps exactly the accepted children", "statement": "After filtering the children of a node with any predicate, iterating its children yields exactly the accepted children in their original order, rejected children are detached, and all links are consistent again.", "quantifier": "every well-formed node, every child count, every predicate", "why_tests_cant": "Depends on the pattern of accepted/rejected children; a unit test fixes one pattern.", "anchors": ["crates/oxvg_ast/src/node.rs: Node::retain_children", "crates/oxvg_optimiser/src/jobs/remove_scripts.rs: exit_element"]}
{"id": "C04", "title": "Sorting child elements is a stable permutation with consistent links", "statement": "Sorting the child elements of an element with any total preorder leaves a permutation of the old child list in which the elements are in sorted order, and leaves all sibling links consistent in both directions.", "quantifier": "every well-formed element, every child count, every total preorder", "why_tests_cant": "The relinking of the list ends depends on which child lands first and last.", "anchors": ["crates/oxvg_ast/src/element.rs: Element::sort_child_elements", "crates/oxvg_optimiser/src/jobs/sort_defs_children.rs"]}
{"id": "C05", "title": "Renaming an element changes nothing but its name", "statement": "Changing an element's local name (as done when converting ellipse to circle, shapes to path, or paths to use) keeps its position among its siblings, its attributes and all of its children.", "quantifier": "every attached element with any children and any siblings", "why_tests_cant": "Tests use childless shapes; the property ranges over all child lists.", "anchors": ["crates/oxvg_ast/src/element.rs: Element::set_local_name", "crates/oxvg_optimiser/src/jobs/convert_ellipse_to_circle.rs", "crates/oxvg_optimiser/src/jobs/convert_shape_to_path.rs", "crates/oxvg_optimiser/src/jobs/reuse_paths.rs"]}
{"id": "C06", "title": "Adding an already attached node moves it", "statement": "append_child and prepend make the given node the last (first) child of the receiver and remove it from wherever it was before, leaving every other child list consistent.", "quantifier": "every well-formed forest, every receiver and every node that is not an ancestor of the receiver, attached or not", "why_tests_cant": "Whether the old parent is corrupted is visible only when the old parent is inspected or edited later.", "anchors": ["crates/oxvg_ast/src/node.rs: Node::append_child", "crates/oxvg_ast/src/element.rs: Element::prepend"]}
{"id": "C07", "title": "Allocation ids identify nodes and follow document order after reorder", "statement": "At every point, looking up an allocation id returns the node that reports that id, no two nodes report the same id, and after a reorder the nodes reachable from the given root have ids 0..n-1 in document order while every other node keeps a unique id and its relative order.", "quantifier": "every sequence of allocations and reorders over every tree shape", "why_tests_cant": "A renumbering bug appears only for particular interleavings of detached nodes and tree shapes.", "anchors": ["crates/oxvg_ast/src/arena.rs: Allocator::alloc, Allocator::get, Allocator::reorder"]}
{"id": "C08", "title": "The visitor visits each node exactly once in document order", "statement": "A visitor run over any document calls element() on every element exactly once in document order and exit_element() exactly once after all of its descendants, visits text, comments and instructions in place, and a skip-children request suppresses exactly the descendants of that element (its siblings and their descendants are still visited).", "quantifier": "every document tree and every pattern of skip-children decisions", "why_tests_cant": "Whether a flag leaks from one subtree to another depends on the tree shape and on which elements request skipping.", "anchors": ["crates/oxvg_ast/src/visitor.rs: Visitor::visit, Visitor::visit_children, ContextFlags::visit_skip"]}
{"id": "C09", "title": "Escaped text and attribute values survive and cannot break out", "statement": "For every string, the escaped form written by the serialiser contains no '<' and no delimiter quote, every '&' in it starts one of the five predefined entity references, and decoding entity references gives the original string back.", "quantifier": "every string and both quote styles", "why_tests_cant": "Injection depends on arbitrary character sequences.", "anchors": ["crates/oxvg_ast/src/xmlwriter.rs: escape_attribute_value, escape_text", "crates/oxvg_ast/src/serialize.rs: Node::serialize_into"]}
{"id": "C10", "title": "Serialising a tree and reading it back gives the same tree", "statement": "For every tree of elements, attributes, text and comments whose names are XML names, writing it without indentation succeeds and an XML reader gets the same tree back (same element names, same attributes in the same order with the same values, same text).", "quantifier": "every document tree of any size and depth", "why_tests_cant": "The writer is a state machine (open tag pending, attributes, content, depth stack); balance and separation have to hold for every sequence of calls.", "anchors": ["crates/oxvg_ast/src/xmlwriter.rs: XmlWriter::start_element, write_attribute_raw, write_text, end_element, close_open_element", "crates/oxvg_ast/src/serialize.rs: Node::serialize_into"]}
{"id": "C11", "title": "Comments and instructions cannot end early in the output", "statement": "When a document containing a comment, CDATA text or processing instruction is serialised successfully, the construct ends in the output only where the writer ended it, so reading the output back yields the same node and no extra markup.", "quantifier": "every comment / instruction / CDATA string", "why_tests_cant": "The terminator can occur anywhere in the content.", "anchors": ["crates/oxvg_ast/src/xmlwriter.rs: write_comment, write_declaration, write_cdata_text"]}
{"id": "C12", "title": "Whitespace preservation is scoped to the element that asks for it", "statement": "xml:space=\"preserve\" (or the pre-like style) affects whitespace handling of the element that carries it and of its descendants only; text after the end of that element is handled as if the element had not been there.", "quantifier": "every tree and every placement of xml:space attributes", "why_tests_cant": "Requires a preserved subtree followed by other text; scoping has to hold for all nestings.", "anchors": ["crates/oxvg_ast/src/xmlwriter.rs: XmlWriter::write_attribute_raw, XmlWriter::end_element, preserve_whitespaces"]}
{"id": "C13", "title": "An element's attributes behave as an ordered map keyed by qualified name", "statement": "After any sequence of set, remove and retain operations on an element's attributes, reading a name gives the value last set and not removed since; setting an existing name keeps its position; other names are unaffected; no name occurs twice if none did initially.", "quantifier": "every initial attribute list without duplicates and every operation sequence", "why_tests_cant": "Map behaviour over arbitrary histories.", "anchors": ["crates/oxvg_ast/src/attribute.rs: Attributes::set_named_item, get_named_item, remove_named_item, retain"]}
{"id": "C14", "title": "Sorting attributes is a deterministic, idempotent permutation", "statement": "Sorting attributes with any configured order list and any namespace-order mode gives a permutation of the attributes, puts them in non-decreasing order of the documented key (namespace group, position in the configured order, name), is idempotent, and the resulting sequence of names does not depend on the original order when names are distinct.", "quantifier": "every attribute list, every order list, both xmlns modes", "why_tests_cant": "A comparator that is not a total preorder makes the result depend on the input order or on the sorting algorithm.", "anchors": ["crates/oxvg_ast/src/attribute.rs: Attributes::sort", "crates/oxvg_optimiser/src/jobs/sort_attrs.rs"]}
{"id": "C15", "title": "A class list behaves as an ordered set kept in step with the attribute", "statement": "After any sequence of add, remove, toggle and replace on an element's class list, membership, length and item queries agree with the class attribute as it would be serialised, adding is idempotent, remove really removes every occurrence, and no class occurs twice if none did initially.", "quantifier": "every initial class attribute and every operation sequence", "why_tests_cant": "The list memoises the parsed tokens; staleness and duplicates depend on the history.", "anchors": ["crates/oxvg_ast/src/class_list.rs: ClassList::add, remove, toggle, replace, contains, retain"]}
{"id": "C16", "title": "Generated ids are fresh", "statement": "The ids handed out by one run of the id minifier are non-empty, consist of ASCII letters, are pairwise distinct, never equal a preserved id, and each request terminates.", "quantifier": "every number of requests and every finite set of ids to avoid", "why_tests_cant": "The counter carries through arbitrarily many digits and interacts with the avoidance set; distinctness is over the whole infinite sequence.", "anchors": ["crates/oxvg_optimiser/src/jobs/cleanup_ids.rs: GeneratedId::next, GeneratedId::get"]}
{"id": "C17", "title": "Minifying ids keeps every reference pointing at the same element", "statement": "After id minification, each reference (url(#x), href=\"#x\", begin=\"x.end\") that resolved to an element before resolves to the same element after, and references that dangled still do not resolve to a renamed element.", "quantifier": "every document with unique ids and every set of references, including several references in one attribute", "why_tests_cant": "Capture occurs only when a freshly generated name equals another original name used in the same place; the property is over all id assignments.", "anchors": ["crates/oxvg_optimiser/src/jobs/cleanup_ids.rs: CleanupIds::prepare_id_rename, exit_document, visit_id, visit_url"]}
{"id": "C18", "title": "Referenced or preserved ids are not removed", "statement": "With removal enabled, an id attribute is deleted only if nothing in the document refers to it and it is neither in the preserve list nor matches a preserve prefix.", "quantifier": "every document and every configuration (remove, minify, preserve, preserve prefixes, force)", "why_tests_cant": "Four independent options times arbitrary id spellings (numeric, percent-encoded, empty).", "anchors": ["crates/oxvg_optimiser/src/jobs/cleanup_ids.rs: CleanupIds::element, CleanupIds::exit_document"]}
{"id": "C19", "title": "Prefixing ids keeps references resolved, ids unique, and is idempotent", "statement": "After prefixing with any prefix and delimiter, each reference resolves to the same element as before, distinct ids stay distinct, classes used in stylesheets still match the same elements, and prefixing again changes nothing.", "quantifier": "every document, prefix, delimiter and combination of the prefix_ids / prefix_class_names switches", "why_tests_cant": "Injectivity over all pairs of ids, including ids that already start with the prefix.", "anchors": ["crates/oxvg_optimiser/src/jobs/prefix_ids.rs: PrefixIds::element, prefix_id"]}
{"id": "C20", "title": "Parsing path data terminates without panic on every string", "statement": "Path::parse_string returns (with a path or an error) for every input string.", "quantifier": "every finite byte string", "why_tests_cant": "Termination for every input cannot be sampled; failures hide in specific token sequences.", "anchors": ["crates/oxvg_path/src/parser.rs: Path::parse, parse_command", "crates/oxvg_parse/src/lib.rs: Parser"]}
{"id": "C21", "title": "Printing and re-parsing path data gives the same path", "statement": "For every path made of finite numbers, the printed path data parses, and parses to the same sequence of commands and arguments (implicit commands may be made explicit).", "quantifier": "every command sequence and every finite argument value", "why_tests_cant": "The printer drops separators depending on the neighbouring numbers; correctness is a statement about all adjacent pairs of number spellings.", "anchors": ["crates/oxvg_path/src/format.rs: Args, Format for Path", "crates/oxvg_path/src/parser.rs: Path::parse"]}
{"id": "C22", "title": "Number scanning takes the longest number and nothing else", "statement": "Scanning a number from a string consumes exactly a prefix that is a number in the SVG grammar (optional sign, digits, fraction, exponent), never part of the following token, and leaves the rest untouched; on failure the caller can resume from where it was.", "quantifier": "every string and position", "why_tests_cant": "Arbitrary continuations after a number (units, dots, signs, exponents).", "anchors": ["crates/oxvg_parse/src/types/number.rs: f64::parse", "crates/oxvg_parse/src/lib.rs: Parser::skip_char"]}
{"id": "C23", "title": "Cursor primitives only move forward over what they matched", "statement": "Each parser primitive (skip a character, skip whitespace, take while, expect a character or string, try an alternative) leaves the cursor on a character boundary between its old position and the end of the input, consumes exactly the characters it reports, and an attempted alternative that fails leaves the cursor unchanged.", "quantifier": "every input string (including multi-byte characters), every position, every predicate", "why_tests_cant": "Byte/character index mistakes appear only for particular suffixes or non-ASCII text.", "anchors": ["crates/oxvg_parse/src/lib.rs: Parser::skip_char, skip_matches, take_matches, advance, expect_char, expect_str, try_parse"]}
{"id": "C24", "title": "Switching between absolute and relative commands does not move points", "statement": "Optimising a path with no lossy option (read into segments, written back choosing the shortest of absolute, relative, horizontal, vertical, smooth and quadratic commands) draws exactly the same lines and curves in order when all coordinates fit the precision, including after closepath and across subpaths.", "quantifier": "every command sequence starting with a moveto", "why_tests_cant": "The current point and the implied control point depend on the entire history of preceding commands.", "anchors": ["crates/oxvg_path/src/optimize.rs: Path::optimize", "crates/oxvg_path/src/paths/segment/convert.rs: Path::from_svg, Path::to_svg, Data::take, to_svg_line, to_svg_curve"]}
{"id": "C25", "title": "A subpath is reported closed only if it is closed", "statement": "When path data is split into segments, a segment is marked closed exactly when its subpath ends in a closepath command or returns to its own start point, and re-emitting the segments never adds a closepath to an open subpath whose end differs from its start.", "quantifier": "every command sequence", "why_tests_cant": "Depends on the start point of the following subpath, i.e. on pairs of subpaths.", "anchors": ["crates/oxvg_path/src/paths/segment/convert.rs: Segment::take, Path::from_svg, Path::to_svg"]}
{"id": "C26", "title": "Pushing a group transform down to its children preserves every total transform", "statement": "When the transform of a group is moved onto its children, the total transform (product along the ancestor chain) of every descendant is unchanged, and nothing else about the tree changes.", "quantifier": "every tree and every transform list", "why_tests_cant": "Matrix products along arbitrary ancestor chains.", "anchors": ["crates/oxvg_optimiser/src/jobs/move_group_attrs_to_elems.rs"]}
{"id": "C27", "title": "Collapsing groups preserves what every leaf inherits", "statement": "When a group is collapsed into its only child, every remaining element has the same total transform, the same inherited presentation values, and the same accumulated non-inherited group effects (opacity and the like) as before.", "quantifier": "every tree with any attributes on groups and children", "why_tests_cant": "Correctness depends on attribute order and on which of the two carries each attribute.", "anchors": ["crates/oxvg_optimiser/src/jobs/collapse_groups.rs: move_attributes_to_child, flatten_when_all_attributes_moved"]}
{"id": "C28", "title": "Hoisting common attributes to the group preserves every computed value", "statement": "When attributes shared by all children of a group are moved to the group, every element keeps the same inherited presentation values and the same total transform.", "quantifier": "every group, every number of children, every attribute assignment", "why_tests_cant": "Requires a statement over all children and all attribute combinations.", "anchors": ["crates/oxvg_optimiser/src/jobs/move_elems_attrs_to_group.rs"]}
{"id": "C29", "title": "Transform list simplification preserves the matrix", "statement": "Simplifying a transform list (merging, dropping identity items, replacing a matrix by simpler primitives) gives a list whose product is the same matrix, in exact arithmetic.", "quantifier": "every list of transforms with real parameters", "why_tests_cant": "A wrong identity test is visible only at special parameter values.", "anchors": ["crates/oxvg_collections/src/attribute/transform.rs: SVGTransformList, is_identity, matrix_to_transform"]}
{"id": "C30", "title": "Matrix decompositions recompose to the matrix", "statement": "Each decomposition of a 2x3 matrix into translate, rotate, skew and scale multiplies back to the same matrix whenever the code uses it.", "quantifier": "every real matrix", "why_tests_cant": "Real-valued case analysis (zero determinant, zero columns).", "anchors": ["crates/oxvg_collections/src/attribute/transform.rs: SVGTransform::matrix_to_transform, decompose_qrab, decompose_qrcd"]}
{"id": "C31", "title": "Printing and parsing transform functions loses nothing", "statement": "Writing any transform function in its shortest form and parsing it back gives an equivalent transform (omitted arguments get the default the parser supplies).", "quantifier": "every transform and parameter", "why_tests_cant": "Default-argument elision depends on parameter values.", "anchors": ["crates/oxvg_collections/src/attribute/transform.rs: ToValue for SVGTransform, Parse for SVGTransform"]}
{"id": "C32", "title": "A namespace declaration in use is never dropped", "statement": "Removing unused namespaces never removes an xmlns declaration whose namespace is used by a prefixed element or attribute anywhere in the document, and removes every other prefixed declaration on the root.", "quantifier": "every document", "why_tests_cant": "Usage may occur at any depth, on elements or on attributes.", "anchors": ["crates/oxvg_optimiser/src/jobs/remove_unused_n_s.rs"]}
{"id": "C33", "title": "Removing xlink touches only xlink", "statement": "Removing xlink attributes leaves every attribute outside the xlink namespace unchanged (other than the documented replacements href, target and title), and never leaves an xlink-prefixed attribute without an xmlns:xlink declaration in scope.", "quantifier": "every document and both settings of include_legacy", "why_tests_cant": "Depends on the combination of unrelated attributes and legacy elements.", "anchors": ["crates/oxvg_optimiser/src/jobs/remove_xlink.rs: exit_element"]}
{"id": "C34", "title": "Prefixes resolve to the innermost declaration in scope", "statement": "While parsing, a prefix (or the default namespace) resolves to the value given by the nearest ancestor-or-self declaration; after an element ends, resolution in its following siblings is as if the element had not declared anything.", "quantifier": "every nesting of namespace declarations, including redeclaration of a prefix with another URI and of a URI with another prefix", "why_tests_cant": "Restoration on exit depends on which halves of the two-way map existed before.", "anchors": ["crates/oxvg_ast/src/parse/roxmltree.rs: NamespaceMap, parse_element"]}
{"id": "C35", "title": "Computed style follows the CSS cascade", "statement": "For each element and property the computed style is the value CSS prescribes among presentation attribute, matching stylesheet rules (by importance, specificity, order), inline style and inheritance from the parent.", "quantifier": "every element, every list of rules, every combination of origins", "why_tests_cant": "The winner is a maximum over arbitrarily many declarations; examples pin single pairs.", "anchors": ["crates/oxvg_ast/src/style.rs: ComputedStyles"]}
{"id": "C36", "title": "Job configuration merging is right-biased, and omit wins", "statement": "Extending a preset with a user configuration gives, for every job, the user's settings if the user gave any and the preset's otherwise; merging is idempotent and associative; a job named in omit does not run, whatever the preset.", "quantifier": "every preset, every user configuration, every omit list, every job", "why_tests_cant": "Dozens of jobs times arbitrary configurations; interaction of three fields.", "anchors": ["crates/oxvg_optimiser/src/jobs/mod.rs: Jobs::extend, Jobs::omit, Jobs::none", "crates/oxvg/src/config.rs: Optimise::resolve_jobs", "crates/oxvg_optimiser/src/lib.rs: Extends"]}
{"id": "C37", "title": "Jobs run in their fixed order and a failing job does not hide later ones unless important", "statement": "A run executes exactly the configured jobs, each at most once, in the fixed order independent of the order in the configuration; it stops early only at an error classed as important, and the reported count is the number of jobs that were not skipped.", "quantifier": "every configuration and every pattern of job outcomes", "why_tests_cant": "Combinatorial in outcomes.", "anchors": ["crates/oxvg_optimiser/src/jobs/mod.rs: Jobs::run, run_jobs"]}
{"id": "C38", "title": "Removing scripts removes scripts and only scripts", "statement": "After script removal no script element, event-handler attribute or javascript: link remains, and every other element and all text that was not inside a script is still present in the same order.", "quantifier": "every document", "why_tests_cant": "Both directions range over arbitrary trees; loss of content occurs only for specific sibling patterns.", "anchors": ["crates/oxvg_optimiser/src/jobs/remove_scripts.rs"]}
{"id": "C39", "title": "Merging style elements preserves the rule sequence", "statement": "Merging all style elements leaves one stylesheet whose rules are those of the originals concatenated in document order, each wrapped in the media query its element carried, and removes no rule.", "quantifier": "every sequence of style elements, media attributes and contents", "why_tests_cant": "Order and wrapping over arbitrary sequences.", "anchors": ["crates/oxvg_optimiser/src/jobs/merge_styles.rs"]}
{"id": "C40", "title": "The recorded history round-trips", "statement": "For every sequence of dispatched actions, the derived state reports exactly that sequence of actions with the same arguments, also after the document has been serialised and loaded into a new actor.", "quantifier": "every finite sequence of actions and all argument values", "why_tests_cant": "Encoder and decoder must agree on every variant and arity.", "anchors": ["crates/oxvg_actions/src/state.rs: Action::embed, Action::from_state, DerivedState::from_state, State::debed"]}
{"id": "C41", "title": "The selection is what was last selected", "statement": "After any sequence of select, select-more, deselect and tree-changing actions, the selection recorded in the document names exactly the selected nodes by their current ids.", "quantifier": "every sequence of selection actions", "why_tests_cant": "The selection element is cached, detached and re-attached; staleness depends on history.", "anchors": ["crates/oxvg_actions/src/effects.rs: effect_selection, effect_tree", "crates/oxvg_actions/src/actions/state.rs: select, select_more, deselect"]}
{"id": "C42", "title": "Line and column positions identify the byte offset", "statement": "The (line, column) reported for a byte offset is such that the line number is the number of newlines before the offset and the column is the distance from the last newline; distinct offsets get distinct positions and positions are ordered like offsets.", "quantifier": "every source text and every offset within it", "why_tests_cant": "Arbitrary newline layouts.", "anchors": ["crates/oxvg_ast/src/node.rs: Ranges::to_line_and_col"]}
{"id": "C43", "title": "Separated lists print and parse back", "statement": "Printing a list of items with its separator and parsing it back gives the same list, for each separator kind.", "quantifier": "every list of items whose printed form contains no separator", "why_tests_cant": "Arbitrary list lengths and item spellings, including the empty list.", "anchors": ["crates/oxvg_collections/src/attribute/list_of.rs: ListOf::parse, ListOf::write_value"]}
{"id": "C44", "title": "Clock values print and parse back", "statement": "Printing any clock value and parsing the result gives the same clock value.", "quantifier": "every clock value of every form", "why_tests_cant": "Sign and padding of each component interact.", "anchors": ["crates/oxvg_collections/src/attribute/animation_timing.rs: ClockValue"]}
{"id": "C45", "title": "Attribute whitespace cleanup is idempotent and keeps words", "statement": "Cleaning attribute whitespace with any combination of the three options keeps the sequence of whitespace-separated words, applying it twice is the same as once, and with all options on the result has no newline, no leading or trailing space and no double space.", "quantifier": "every string and all option combinations", "why_tests_cant": "Arbitrary strings.", "anchors": ["crates/oxvg_optimiser/src/jobs/cleanup_attrs.rs"]}
{"id": "C46", "title": "The unused-id lint reports exactly the unreferenced ids", "statement": "When the document has no script, an id is reported unused if and only if no attribute or stylesheet refers to it.", "quantifier": "every document", "why_tests_cant": "Both directions over arbitrary id/reference sets.", "anchors": ["crates/oxvg_lint/src/rules/mod.rs: Reporter::track_id_references", "crates/oxvg_lint/src/rules/no_unused_ids.rs"]}
{"id": "C47", "title": "The unused-namespace lint never reports a used namespace", "statement": "A namespace declaration is reported unused only if no element or attribute in its scope uses it, where a use belongs to the nearest enclosing declaration.", "quantifier": "every nesting of declarations and uses", "why_tests_cant": "Scoping over arbitrary trees.", "anchors": ["crates/oxvg_lint/src/rules/mod.rs: push_xmlns, track_xmlns, pop_xmlns", "crates/oxvg_lint/src/rules/no_unused_xmlns.rs"]}
{"id": "C48", "title": "Selection info reports what is common to all selected elements", "statement": "The content categories, permitted elements, expected attributes and attribute values reported for a selection are those shared by every selected element.", "quantifier": "every selection of any size", "why_tests_cant": "Intersection over arbitrarily many elements.", "anchors": ["crates/oxvg_actions/src/info.rs: Info::new"]}
{"id": "C49", "title": "Only containers that are empty are removed", "statement": "Removing empty containers never removes an element that is referenced by id or has content, and after the job no removable empty container remains.", "quantifier": "every tree", "why_tests_cant": "Emptiness is created bottom-up by earlier removals.", "anchors": ["crates/oxvg_optimiser/src/jobs/remove_empty_containers.rs"]}
{"id": "C50", "title": "Useful definitions survive defs cleanup", "statement": "Cleaning definitions keeps every element in defs that can be referenced (has an id) or styled, and keeps style elements, in order.", "quantifier": "every defs subtree", "why_tests_cant": "Arbitrary nesting of useless wrappers around useful nodes.", "anchors": ["crates/oxvg_optimiser/src/jobs/remove_useless_defs.rs"]}
{"id": "C51", "title": "Names that compare equal are ordered equal and vice versa", "statement": "For the qualified-name types, equality, ordering and hashing agree: two names compare Equal exactly when they are ==, the order is a total order, and equal names behave identically as map keys.", "quantifier": "every pair and triple of names", "why_tests_cant": "Laws over all pairs/triples.", "anchors": ["crates/oxvg_collections/src/name.rs: Prefix, QualName (Eq, Ord, Hash)"]}
{"id": "C52", "title": "Shape conversion traces the shape", "statement": "Converting a rect, line, polyline or polygon to a path yields a path through exactly the vertices of the shape in order, closed exactly for rect and polygon; shapes that are kept are unchanged.", "quantifier": "every shape with any coordinates and any number of points", "why_tests_cant": "Arbitrary point lists.", "anchors": ["crates/oxvg_optimiser/src/jobs/convert_shape_to_path.rs"]}
{"id": "C53", "title": "Removing viewBox or dimensions does not change the rendered viewport", "statement": "The viewBox is removed only if it equals 0 0 width height, and removing dimensions keeps or synthesises the equivalent viewBox.", "quantifier": "every combination of viewBox, width, height values", "why_tests_cant": "Numeric and unit cases.", "anchors": ["crates/oxvg_optimiser/src/jobs/remove_view_box.rs", "crates/oxvg_optimiser/src/jobs/remove_dimensions.rs"]}
{"id": "C54", "title": "Hidden-element removal never fails and keeps referenced definitions", "statement": "Removing hidden elements does not panic on any document and does not remove an element whose id is referenced from a visible element.", "quantifier": "every document and every href value", "why_tests_cant": "String slicing on arbitrary attribute values; reference sets over arbitrary trees.", "anchors": ["crates/oxvg_optimiser/src/jobs/remove_hidden_elems.rs"]}
{"id": "C55", "title": "Whitespace collapsing keeps the text", "statement": "With default whitespace handling the words of every text are kept in order and nothing but XML whitespace (space, tab, newline, carriage return) is changed.", "quantifier": "every text, at every position among its siblings", "why_tests_cant": "The set of Unicode whitespace characters and their arrangements is unbounded.", "anchors": ["crates/oxvg_ast/src/xmlwriter.rs: write_text"]}
{"id": "C56", "title": "The default prefix is derived from the file's name", "statement": "With no explicit prefix configured, ids of a document read from a file are prefixed with that file's name (dots and spaces replaced), so two files with different names get different prefixes.", "quantifier": "every path and delimiter", "why_tests_cant": "The path is data from the environment; any fixed set of paths leaves out directories, absolute paths or odd separators.", "anchors": ["crates/oxvg_optimiser/src/jobs/prefix_ids.rs: GeneratePrefix::generate, get_basename"]}
{"id": "C57", "title": "An SVGO plugin list enables exactly the jobs it names", "statement": "Converting an SVGO configuration enables the job of each listed plugin (preset-default standing for all default jobs, in both the string and the object form) with its default or given parameters, leaves all others off, and reports an error for a plugin that has no job.", "quantifier": "every plugin list", "why_tests_cant": "The mapping is by generated field names for 55 jobs and by order of the list entries; tests name a few plugins.", "anchors": ["crates/oxvg_optimiser/src/jobs/mod.rs: Jobs::from_svgo_plugin_config, set_svgo_plugin_string, from_svgo_plugin_to_snake_case"]}
{"id": "C58", "title": "Rounding transforms stays within the configured precision", "statement": "Shortening a transform changes each matrix entry by less than one unit of the last place of the configured transform precision (float precision for translations).", "quantifier": "every transform and precision", "why_tests_cant": "The effective precision depends on the digits of all entries of all matrices; tests look at a few matrices.", "anchors": ["crates/oxvg_collections/src/attribute/transform.rs: Precision::round_arg, smart_round", "crates/oxvg_optimiser/src/jobs/convert_transform.rs: define_precision"]}
{"id": "C59", "title": "Reading an attribute value never crashes", "statement": "Whatever text an attribute has, reading it as a transform list or as a clock value ends with a value or an error, never with a panic.", "quantifier": "every text", "why_tests_cant": "Panics hide in slicing inside a character and in iteration limits, at texts no test has.", "anchors": ["crates/oxvg_parse/src/lib.rs: Parser::expect_ident", "crates/oxvg_collections/src/attribute/transform.rs: SVGTransformList::parse", "crates/oxvg_collections/src/attribute/animation_timing.rs: ClockValue::parse"]}
{"id": "C60", "title": "Rounding the numbers of a path does not move its points far", "statement": "After writing a path at a given precision, every point of the written path is within one unit of the last kept digit of where the original path has it.", "quantifier": "every path, of any length", "why_tests_cant": "Rounding errors of relative commands add up along the path; a test would need a long path and an interpreter to see it.", "anchors": ["crates/oxvg_path/src/paths/segment/convert.rs: Path::to_svg, compactest_vec", "crates/oxvg_path/src/geometry.rs: TolerancePrecision::round"]}
{"id": "C61", "title": "Indentation adds white space between elements only", "statement": "Writing a document with indentation gives a reader the same document as writing it without, except for white space between nodes. No white space is added inside elements that render their text, or where xml:space asks to preserve it, and words that were apart stay apart.", "quantifier": "every document, every indentation width, every whitespace mode", "why_tests_cant": "Whether a space is visible depends on all ancestors and on the neighbouring nodes; a test checks one document's exact output.", "anchors": ["crates/oxvg_ast/src/xmlwriter.rs: write_text, write_new_line, write_indent, is_text_content_element", "crates/oxvg_ast/src/serialize.rs: serialize_node"]}
{"id": "C62", "title": "Pushing transforms down keeps the coordinates of group effects", "statement": "When the transform of a group is moved onto its children, every filter, clip path and mask that applies to an element is still applied in the coordinate system it was given in.", "quantifier": "every tree and every attribute assignment", "why_tests_cant": "Depends on the kind of value of another attribute and on the ancestor chain.", "anchors": ["crates/oxvg_optimiser/src/jobs/move_group_attrs_to_elems.rs"]}
{"id": "C63", "title": "Recognising names keeps names", "statement": "When a name is looked up in the tables of known elements and attributes, the element or attribute still has the written name and the namespace it had, and an attribute is recognised exactly on the elements that list it.", "quantifier": "every element, prefix, namespace and local name", "why_tests_cant": "There are hundreds of names in two generated tables, each with prefixes that may be aliased; tests name a few.", "anchors": ["crates/oxvg_collections/src/element.rs: ElementId::new, ElementId::parse_attr_id", "crates/oxvg_collections/src/attribute.rs: AttrId, AttributeGroup::parse_attr_id"]}
{"id": "C64", "title": "Editing the document while walking it is safe", "statement": "A visitor that removes nodes or unwraps elements from its callbacks still gets every node of the document exactly once, in document order, and the document left has exactly those edits done, with consistent links.", "quantifier": "every document, every choice of edits for its nodes", "why_tests_cant": "The walk holds an iterator into the children while a callback changes them; a fault shows only for particular combinations of edits on neighbouring nodes.", "anchors": ["crates/oxvg_ast/src/visitor.rs: visit, visit_children", "crates/oxvg_ast/src/node.rs: remove, child_nodes_iter", "crates/oxvg_ast/src/element.rs: flatten"]}
{"id": "C65", "title": "Removing default and inherited values changes no style", "statement": "After presentation attributes with their default value or the value their parent hands down are removed, every property of every element still has the value it had, whichever media queries match.", "quantifier": "every document and every stylesheet", "why_tests_cant": "The value depends on all ancestors, of which some attributes have been removed already, on stylesheets and on references.", "anchors": ["crates/oxvg_optimiser/src/jobs/remove_unknowns_and_defaults.rs", "crates/oxvg_ast/src/style.rs"]}
{"id": "C66", "title": "What SVG 2 defines is not removed as unknown", "statement": "An attribute that SVG 2 defines for an element, and a child that SVG 2 allows in an element, is not removed as unknown; an attribute without a prefix that no specification defines is.", "quantifier": "every element and attribute of SVG 2, every other name, every value and setting", "why_tests_cant": "The permitted names are in tables with thousands of combinations; tests name a few.", "anchors": ["crates/oxvg_optimiser/src/jobs/remove_unknowns_and_defaults.rs", "crates/oxvg_collections/src/element.rs: is_permitted_child, is_permitted_attribute", "crates/oxvg_collections/src/attribute.rs"]}
{"id": "C67", "title": "Only values without effect are removed as defaults", "statement": "An attribute that is removed because it has its default value has the value SVG 2 gives when the attribute is missing on that element.", "quantifier": "every element and attribute of SVG 2, every value and setting", "why_tests_cant": "A wrong entry among about two hundred defaults shows only for that attribute with that value.", "anchors": ["crates/oxvg_optimiser/src/jobs/remove_unknowns_and_defaults.rs", "crates/oxvg_collections/src/attribute.rs: AttrId::default"]}
{"id": "C68", "title": "Minifying styles keeps every rule that applies", "statement": "After styles are minified and unused rules removed, every element has the same rules applying to it as before in the same order, apart from what minification alone changes. Rules are left alone when a script could add elements or classes. No document makes the job panic.", "quantifier": "every document, every stylesheet, every element, every setting", "why_tests_cant": "Whether a rule is used depends on every element of the document and on all parts of the selector.", "anchors": ["crates/oxvg_optimiser/src/jobs/minify_styles.rs", "crates/oxvg_ast/src/visitor.rs: has_scripts"]}
{"id": "C69", "title": "Merging paths draws the same", "statement": "After neighbouring paths are merged, the same subpaths are drawn in the same order with the same attributes; paths are merged only if they are apart, and never with one that has content, an id or a style that applies to the whole shape. The picture is the same.", "quantifier": "every list of children, every path data, both settings of force", "why_tests_cant": "Merging depends on how data is written (relative starts, implicit commands, trailing moves) and on runs of any length.", "anchors": ["crates/oxvg_optimiser/src/jobs/merge_paths.rs"]}
{"id": "C70", "title": "Removing useless strokes and fills keeps the look of shapes", "statement": "After removeUselessStrokeAndFill every shape is stroked if and only if it was, with the same stroke properties (also where markers depend on them), filled if and only if it was, with the same fill properties, and all its other properties are the same. Elements with an id and all they hold stay as they are. Shapes are removed only if nothing of them is drawn.", "quantifier": "every document, every nesting, attributes and style attributes, every setting of the options", "why_tests_cant": "It depends on inheritance through any number of ancestors, on which source of a property wins, and on what remains once attributes are gone.", "anchors": ["crates/oxvg_optimiser/src/jobs/remove_useless_stroke_and_fill.rs", "crates/oxvg_ast/src/style.rs"]}
{"id": "C71", "title": "Applying a transform to path data draws the image of the path", "statement": "apply_matrix_to_path_data replaces path data so that each line, curve and arc of the new drawing is the image under the matrix of the one it replaces: with the image of its end points and control points, and for arcs the same size flag, and the side they bulge to turned if and only if the matrix turns the plane over. No command of the result is implicit.", "quantifier": "every invertible matrix, every path that starts with a move, absolute, relative, smooth and implicit commands in any order", "why_tests_cant": "Relative commands, smooth control points and the ends of closed subpaths depend on all commands before; matrices are infinitely many.", "anchors": ["crates/oxvg_optimiser/src/jobs/apply_transforms.rs"]}
{"id": "C72", "title": "The ellipse of a transformed arc is the image of its ellipse", "statement": "When applyTransforms transforms an arc, the new radii and rotation are those of the image of the ellipse the arc was on, also when its radii are too short for its end points and are made longer. The new radii are positive and are numbers.", "quantifier": "every invertible matrix, all radii other than 0, every rotation, every chord, over the reals", "why_tests_cant": "Radii, angles and matrices are real numbers; the computation goes through eigenvalues and an arc cosine with several cases.", "anchors": ["crates/oxvg_optimiser/src/jobs/apply_transforms.rs"]}
{"id": "C73", "title": "Applying transforms keeps the look of strokes and fills", "statement": "When applyTransforms moves the transform of an element into its path data, the element looks as before: its points are drawn at the same places, its stroke has the same paint, the same pen and the same dashes on the screen, and gradients and patterns are at the same place. The option to apply transforms to stroked paths makes it apply them. It does not panic.", "quantifier": "every element and its ancestors, every matrix, attributes and stylesheets, whether or not media queries hold, over the reals", "why_tests_cant": "It depends on inheritance, on what stylesheets say, and on all matrices that keep the form of a circle.", "anchors": ["crates/oxvg_optimiser/src/jobs/apply_transforms.rs"]}
{"id": "C74", "title": "Inlining styles keeps the value of every property of every element", "statement": "inlineStyles, which moves rules of style elements to style attributes, leaves the value that the cascade gives to every property of every element as it is, whatever conditions of media queries hold, keeps attributes that are not presentation attributes and ids that are referred to, and follows its options.", "quantifier": "every document and stylesheets, every element and property, every set of conditions that hold", "why_tests_cant": "It depends on all combinations of specificity, order, importance, what other selectors ask for and media.", "anchors": ["crates/oxvg_optimiser/src/jobs/inline_styles.rs"]}
{"id": "C75", "title": "Ellipses turned into circles keep their radii", "statement": "convertEllipseToCircle leaves the horizontal and vertical radius that each element is drawn with as they are, whatever the size of the viewport, the units, and what stylesheets say about the radii, and it converts every ellipse both radii of which are written alike.", "quantifier": "every ellipse, every viewport, every value that CSS gives to the radii", "why_tests_cant": "The result depends on the viewport and stylesheet the document is used with, and on the interplay of auto, percentages and absent attributes.", "anchors": ["crates/oxvg_optimiser/src/jobs/convert_ellipse_to_circle.rs"]}
{"id": "C76", "title": "Removing deprecated attributes keeps the language of text and what selectors match", "statement": "removeDeprecatedAttrs by default removes nothing but version, and xml:lang beside lang, leaves the language of every element as it is, and never changes whether a selector of the document's stylesheets matches an element, whatever the option.", "quantifier": "every element and its ancestors, every attribute of the table, every selector, both values of removeAny", "why_tests_cant": "It depends on the whole table of attributes with their flags and on every form in which a selector can name an attribute.", "anchors": ["crates/oxvg_optimiser/src/jobs/remove_deprecated_attrs.rs", "crates/oxvg_collections/src/attribute.rs"]}
{"id": "C77", "title": "Replacing gradients with one stop keeps every paint", "statement": "After convertOneStopGradients every element other than the gradients with one stop is still there and each of its paints, from attributes, style attributes or style elements, looks as it did; the job does not panic, and the prefix xlink stays declared where it is in use.", "quantifier": "every document, every paint of every element, chains of references of any length", "why_tests_cant": "What a paint looks like depends on chains of references between gradients, the computed style of stops, and on the order in which nested svg elements are left.", "anchors": ["crates/oxvg_optimiser/src/jobs/convert_one_stop_gradients.rs"]}
{"id": "C78", "title": "Rounding values keeps them within half a unit in the last place", "statement": "cleanupNumericValues and cleanupListOfValues keep the kind of every value, change each number by half a unit in the last place of the unit that is written at most (converting absolute units as CSS has it), change nothing when run again, leave every number they are for with the configured number of decimals, obey their options, and fail exactly when more than five decimals are asked for.", "quantifier": "every value of every type with numbers, every precision, every option, every size of relative units", "why_tests_cant": "The value, the unit and the precision range over unbounded sets; unit tests print with six digits, which hides values that were not rounded.", "anchors": ["crates/oxvg_collections/src/content_type.rs", "crates/oxvg_optimiser/src/jobs/cleanup_numeric_values.rs", "crates/oxvg_optimiser/src/jobs/cleanup_list_of_values.rs"]}
{"id": "C79", "title": "Removing attributes of groups that are not inherited changes nothing", "statement": "removeNonInheritableGroupAttrs removes attributes from groups only, keeps the computed value of every property of every element and the placement of groups, and removes the attributes that are of no use on a group.", "quantifier": "every chain of elements, every attribute of the program's table, any set of inherited properties and initial values", "why_tests_cant": "The decision combines three tables with over four hundred rows, and the effect shows in the computed style of descendants.", "anchors": ["crates/oxvg_optimiser/src/jobs/remove_non_inheritable_group_attrs.rs", "crates/oxvg_collections/src/attribute.rs"]}
{"id": "C80", "title": "Removing empty attributes changes nothing", "statement": "An attribute that removeEmptyAttrs removes means the same as no attribute: namespaces, the language, references, animation values, boolean attributes, conditions and every other value stay the same; afterwards no attribute is empty but conditions, and no other attribute is removed.", "quantifier": "every element with every set of attributes of every type", "why_tests_cant": "Whether an empty value means the same as none differs between hundreds of attributes.", "anchors": ["crates/oxvg_optimiser/src/jobs/remove_empty_attrs.rs", "crates/oxvg_collections/src/content_type.rs"]}
{"id": "C81", "title": "Removing what is not drawn keeps what is", "statement": "The jobs that remove comments, the doctype, the XML declaration, metadata, titles, descriptions and editor data keep all that is drawn, the stylesheets, what is referred to and what selectors match; they obey their options, keep comments that begin with an exclamation mark and descriptions that say more than the name of an editor, and leave every prefix in use declared.", "quantifier": "every document tree of any depth, every set of patterns and additional namespaces", "why_tests_cant": "Nesting of declarations and of what is removed is unbounded.", "anchors": ["crates/oxvg_optimiser/src/jobs/remove_comments.rs", "crates/oxvg_optimiser/src/jobs/remove_doctype.rs", "crates/oxvg_optimiser/src/jobs/remove_x_m_l_proc_inst.rs", "crates/oxvg_optimiser/src/jobs/remove_metadata.rs", "crates/oxvg_optimiser/src/jobs/remove_title.rs", "crates/oxvg_optimiser/src/jobs/remove_desc.rs", "crates/oxvg_optimiser/src/jobs/remove_editors_n_s_data.rs"]}
{"id": "C82", "title": "Removing empty text elements keeps the text", "statement": "removeEmptyText keeps every character that is drawn, with the elements it is in and in its order, including the spaces between words; it removes only elements of the kinds its options name, and afterwards none is left that is empty.", "quantifier": "every document tree of any depth, every setting of the options", "why_tests_cant": "Whether an element without text matters depends on what is around it, at any depth.", "anchors": ["crates/oxvg_optimiser/src/jobs/remove_empty_text.rs"]}
{"id": "C83", "title": "Whether paths meet is found out rightly", "statement": "When Path::intersects says no, the paths are apart: there is a line between any two of their segments, so that nothing is covered by both. When it says yes, convex hulls of their segments have a point in common. It always gives an answer.", "quantifier": "all pairs of paths with any number of segments, lines, curves and arcs, with rational coordinates", "why_tests_cant": "It is an iterative search over convex hulls of any size; tests see a few pairs of shapes.", "anchors": ["crates/oxvg_path/src/gjk_intersection.rs", "crates/oxvg_path/src/geometry/point.rs"]}
{"id": "C84", "title": "Paths are removed only when nothing of them is on the canvas", "statement": "removeOffCanvasPaths removes no path of which anything can be seen: nothing that lies within the viewport, with its stroke, transformed as it is, or used elsewhere. Everything else stays as it is, and elements under a transform are not judged.", "quantifier": "every document tree, every view box, all paths with any number of segments", "why_tests_cant": "What can be seen depends on geometry, coordinate systems and references at a distance from the path.", "anchors": ["crates/oxvg_optimiser/src/jobs/remove_off_canvas_paths.rs"]}
{"id": "C85", "title": "Declarations that become attributes keep their effect", "statement": "convertStyleToAttrs leaves the value that the cascade gives to every property of every element as it was, whatever stylesheets say; declarations that cannot be attributes stay in style in their order, important ones stay when so configured, other attributes keep their values, and an empty style is removed.", "quantifier": "every element, every list of declarations, every stylesheet", "why_tests_cant": "The cascade compares declarations from attributes, style and stylesheets; the job changes the origin of a declaration, which matters only together with others.", "anchors": ["crates/oxvg_optimiser/src/jobs/convert_style_to_attrs.rs", "crates/oxvg_collections/src/attribute.rs", "crates/oxvg_ast/src/attribute.rs"]}
{"id": "C86", "title": "Sorting attributes only changes their order, predictably", "statement": "sortAttrs keeps every attribute with its value; the order it gives does not depend on the order before, a second run changes nothing, listed attributes come in the order of the list and before others, which are in alphabetical order, and declarations of namespaces come first unless asked otherwise. The comparison is a total order, so that sorting cannot panic.", "quantifier": "every element with any attributes, every list of names, both settings", "why_tests_cant": "That a comparison is an order is about all triples of names; tests see a few lists.", "anchors": ["crates/oxvg_optimiser/src/jobs/sort_attrs.rs", "crates/oxvg_ast/src/attribute.rs", "crates/oxvg_collections/src/attribute.rs"]}
{"id": "C87", "title": "Sorting the children of defs keeps what they mean", "statement": "sortDefsChildren keeps every child; references find the same elements, elements of the same name (such as style) keep their order, frequent ones come first, text and comments keep their order, a second run changes nothing, and the comparison is a total order, so that sorting cannot panic.", "quantifier": "every list of children of any length", "why_tests_cant": "As C86; panics of the standard library need more than twenty children.", "anchors": ["crates/oxvg_optimiser/src/jobs/sort_defs_children.rs", "crates/oxvg_ast/src/element.rs"]}
{"id": "C88", "title": "Attributes are removed exactly as the patterns say", "statement": "removeAttrs removes an attribute if and only if, for some pattern, the name of the element, the name of the attribute and its value match the parts of the pattern as a whole; attributes set to currentColor stay when so configured, the others keep their order, and there is an error exactly if a part is not a regular expression.", "quantifier": "every list of patterns, every separator, every element with any attributes", "why_tests_cant": "It is about the languages of arbitrary expressions, not about strings that someone thought of.", "anchors": ["crates/oxvg_optimiser/src/jobs/remove_attrs.rs"]}
{"id": "C89", "title": "Equal paths become uses of one without changing the picture", "statement": "reusePaths moves paths with the same shape, fill and stroke into one path in defs and turns them into uses of it; what the document draws stays the same: each shape with its paint, transformations and other attributes in the same order, and existing references, titles and prefixes keep working. A document without paths, or with the job off, is untouched.", "quantifier": "every document of any size and nesting, with any groups, definitions and references", "why_tests_cant": "What is drawn depends on who refers to whom through any chain of groups and uses; snapshots show the new document without what it draws.", "anchors": ["crates/oxvg_optimiser/src/jobs/reuse_paths.rs", "crates/oxvg_ast/src/element.rs", "crates/oxvg_ast/src/node.rs"]}
{"id": "C90", "title": "convertPathData only uses the path optimisations that are safe for the styles of the path", "statement": "Which optimisations convertPathData applies to a path follows from its computed styles: each one that is applied was asked for and is documented as safe for every way the path may be drawn (stroke, caps, joins, fill rule, markers), and each one that was asked for and is safe for all of them is applied.", "quantifier": "every configuration and every combination of computed styles, static, dynamic, inherited or unknown", "why_tests_cant": "Nine flags, eight properties and their static, dynamic, inherited and unknown values make too many combinations; the test documents have a handful.", "anchors": ["crates/oxvg_optimiser/src/utils/style_info.rs", "crates/oxvg_optimiser/src/jobs/convert_path_data.rs", "crates/oxvg_path/src/optimize.rs"]}
{"id": "C91", "title": "Simplifying a path does not move what it draws by more than the tolerance", "statement": "Each pass of the simplification of paths (straight curves, commands of no length, joined nodes, closing lines, empty segments) keeps every place of the stroke, or of the outline where only the fill is drawn, within the tolerance of the result and the other way round.", "quantifier": "every path of any length, every tolerance and every set of options", "why_tests_cant": "A picture is compared as text: a corner or loop that is gone is only seen by someone who looks, and the places of a curve are infinitely many.", "anchors": ["crates/oxvg_path/src/paths/segment/simplify.rs", "crates/oxvg_path/src/geometry/curve.rs", "crates/oxvg_path/src/geometry/point.rs"]}
{"id": "C92", "title": "cleanupAttrs keeps the meaning of attributes", "statement": "Cleaning the white space of attributes changes no element, no attribute name or order and no value of a type other than text; the tokens of each text value, separated by the white space of XML, stay the same; values in which white space matters keep their meaning; a second run changes nothing.", "quantifier": "every document, every attribute of the table and every value, every setting of the three options", "why_tests_cant": "Which of the 400 attributes hold free text, and which characters count as white space, depends on two tables; tests look at class and a few others.", "anchors": ["crates/oxvg_optimiser/src/jobs/cleanup_attrs.rs", "crates/oxvg_collections/src/attribute.rs"]}
{"id": "C93", "title": "The check before cleaning refuses exactly what could break", "statement": "With the check on, a document is refused if and only if it has scripts, event handlers, animations, conditional processing or references to other documents; the reason that is given is true of the document; with the check off nothing is refused. The search for scripts that other jobs rely on finds all elements, attributes and links that run code.", "quantifier": "every document with any names, prefixes, namespaces and values", "why_tests_cant": "A handler that is not in the table of attributes is silently missed; tests check one example of each reason.", "anchors": ["crates/oxvg_optimiser/src/jobs/precheck.rs", "crates/oxvg_ast/src/visitor.rs", "crates/oxvg_collections/src/attribute.rs"]}
{"id": "C94", "title": "The jobs that remove elements remove exactly the elements asked for", "statement": "removeRasterImages removes the images whose link is a raster image and nothing else; removeElementsByAttr removes the elements with one of the ids or classes asked for and nothing else; removeStyleElement removes the style elements and nothing else. With nothing asked for the document stays.", "quantifier": "every document, every list of ids and classes", "why_tests_cant": "Substrings, cases, prefixes and quotes of any text decide what is removed; tests show one removed element each.", "anchors": ["crates/oxvg_optimiser/src/jobs/remove_raster_images.rs", "crates/oxvg_optimiser/src/jobs/remove_elements_by_attr.rs", "crates/oxvg_optimiser/src/jobs/remove_style_element.rs"]}
{"id": "C95", "title": "Attributes keep their meaning under their names in JSX", "statement": "Each attribute of a document is written in JSX under the name that React sets back to this attribute: the camel case name for known ones, the same name for aria and data attributes; each name is a valid name in JSX; none is lost, and two attributes of an element never share a name.", "quantifier": "every element and every attribute name, prefix and namespace, and the whole table of attributes", "why_tests_cant": "Names are derived from a table of several hundred rows with exceptions; tests look at a handful.", "anchors": ["crates/oxvg_jsx/src/utils/attr_to_jsx_str.rs", "crates/oxvg_jsx/src/swc.rs"]}
{"id": "C96", "title": "The JSX of a document renders what the document shows", "statement": "Rendering the JSX made from a document by the rules of JSX gives the elements, attributes and text of the document in its order; each opening tag has its closing tag; style becomes an object with the same declarations; comments and declarations leave nothing.", "quantifier": "every document: any nesting, names, values and text", "why_tests_cant": "Rules of JSX for white space, braces and names apply to any text; tests compare printed modules of a few files.", "anchors": ["crates/oxvg_jsx/src/swc.rs"]}
{"id": "C97", "title": "The options of a component have the effect they are documented with", "statement": "svgProps are set on the svg element, ref, title, desc, icon, dimensions and expandProps change just that element, titles and descriptions given by the caller replace those of the document and default to them; replaceAttrValues replaces the values asked for everywhere; for react-native every element is a component that is imported. Without options nothing changes.", "quantifier": "every document, every combination of options, every set of properties given by the caller", "why_tests_cant": "Options interact (a width that is set and dropped, a title in a group, maps in random order); tests try each option alone.", "anchors": ["crates/oxvg_jsx/src/swc/preset.rs", "crates/oxvg_jsx/src/swc.rs", "crates/oxvg_jsx/src/config.rs"]}
{"id": "C98", "title": "The module around a component makes sense", "statement": "Whatever the options, the module that is written imports or declares every name and type it uses, declares none twice, has only imports that are allowed, and exports the component in the wrappers that were asked for; a document with an svg element at the top always gives a module.", "quantifier": "every document, every combination of options, runtime, component name and export name", "why_tests_cant": "Ten switches and free names combine; tests compare the text of modules for one or two switches at a time and never run or type-check them.", "anchors": ["crates/oxvg_jsx/src/swc/get_variables.rs", "crates/oxvg_jsx/src/lib.rs", "crates/oxvg_jsx/src/config.rs"]}
{"id": "C99", "title": "Selectors pick the elements that CSS says", "statement": "An element matches a selector exactly when CSS says it does: names, ids, classes, attributes with their operators, :not, :root, :empty and the four combinators; a search returns exactly the matching elements inside the starting element, each once, and outer elements before inner ones.", "quantifier": "every document, every selector list, every element and starting element", "why_tests_cant": "Selectors and trees combine without bound; the crate's tests match a handful of selectors against one small document, and the matching is a callback protocol with a crate that was made for HTML.", "anchors": ["crates/oxvg_ast/src/selectors.rs", "crates/oxvg_ast/src/element.rs"]}
{"id": "C100", "title": "Elements are told apart when they are counted or compared with the scope", "statement": ":nth-child, :nth-last-child, :nth-of-type, :nth-last-of-type and :scope match as CSS says, whatever was matched before with the same caches.", "quantifier": "every document, every selector list, every starting element, every choice of the addresses that serve as identities", "why_tests_cant": "The identity of an element is the address of a temporary value, so that results depend on the layout of the stack; a test sees one layout and one optimisation level.", "anchors": ["crates/oxvg_ast/src/selectors.rs"]}
{"id": "C101", "title": "removeAttributesBySelector removes what it was asked to remove", "statement": "Each item of the configuration removes, from exactly the elements that its selector picks, exactly the attributes with the names it lists, items one after the other; the job fails exactly if a selector cannot be read, and then without having changed the document.", "quantifier": "every document, every list of items, every layout of addresses", "why_tests_cant": "Matching is lazy while the tree changes, and selectors, names and trees combine without bound; tests run four configurations.", "anchors": ["crates/oxvg_optimiser/src/jobs/remove_attributes_by_selector.rs", "crates/oxvg_ast/src/selectors.rs"]}
{"id": "C102", "title": "The attributes of the root are added and removed as configured", "statement": "addAttributesToSVGElement adds to the root svg the attributes whose names are not there yet and changes nothing else; addClassesToSVGElement adds the classes to the root svg; removeXMLNS removes the declaration of the default namespace; none of them panics.", "quantifier": "every element, list of attributes, and configuration", "why_tests_cant": "Names are looked up behind aliases of namespaces, and the classes go through a hashed set; tests have one document for each.", "anchors": ["crates/oxvg_optimiser/src/jobs/add_attributes_to_s_v_g_element.rs", "crates/oxvg_optimiser/src/jobs/add_classes_to_s_v_g_element.rs", "crates/oxvg_optimiser/src/jobs/remove_x_m_l_n_s.rs", "crates/oxvg_ast/src/attribute.rs", "crates/oxvg_ast/src/element.rs"]}
{"id": "C103", "title": "cleanupEnableBackground keeps what filters need", "statement": "In a document without filters every enable-background is removed and nothing else changes; in a document with filters only those are removed or shortened whose area is the whole svg, mask or pattern, so that every element keeps the background area it had. The job does nothing on its own output, and nothing when it is switched off.", "quantifier": "every document of elements with enable-background in attributes and styles, every area and size", "why_tests_cant": "The area, the size of the element and the presence of a filter anywhere in the document combine freely; tests have nine small documents.", "anchors": ["crates/oxvg_optimiser/src/jobs/cleanup_enable_background.rs", "crates/oxvg_collections/src/attribute/presentation.rs"]}
{"id": "C104", "title": "convertColors with currentColor replaces every colour outside masks and none inside", "statement": "With the method currentColor, outside masks every property that ends up with a colour ends up with currentcolor, none and references stay; inside masks every value stays what it was. The default method changes nothing of the values, and a second run changes nothing.", "quantifier": "every tree of elements, property, inheritance and nesting of masks", "why_tests_cant": "Whether an element is in a mask and where its colours come from depends on all its ancestors; tests have a handful of documents.", "anchors": ["crates/oxvg_optimiser/src/jobs/convert_colors.rs", "crates/oxvg_collections/src/content_type.rs"]}
{"id": "C105", "title": "Parsing with xml5ever keeps the namespaces of all names", "statement": "The tree built from what xml5ever reads has the elements and attributes that were read plus declarations of namespaces on the root; every prefixed or unprefixed name resolves, by the declarations around it, to the namespace the parser found for it; no attribute occurs twice; building does not panic.", "quantifier": "every tree of elements and attributes handed over by the parser", "why_tests_cant": "The declarations are invented while the tree grows, from a map that changes with every element; tests parse documents with one or two namespaces.", "anchors": ["crates/oxvg_ast/src/parse/markup5ever.rs", "crates/oxvg_collections/src/name.rs"]}
{"id": "C106", "title": "The report of the linter points at the place of the problem", "statement": "A report shows the line of the source that holds the range of the problem, with its number, and below it a mark under exactly the characters of the range; reading the source for a report never panics; the command fails exactly when there is an error or a warning, with their numbers.", "quantifier": "every source text, every range in it and every list of severities", "why_tests_cant": "Offsets are turned into lines and columns by hand, with edge cases at every line break and at the end of the file; tests compare a few reports of ASCII files.", "anchors": ["crates/oxvg_lint/src/error.rs", "crates/oxvg_lint/src/utils.rs", "crates/oxvg_lint/src/parse.rs"]}
{"id": "C107", "title": "The lint rules report what is wrong with an element and nothing else", "statement": "Nothing is reported for an element of SVG 2 with attributes and values SVG 2 gives it in a place it may have; unknown attributes and children, XLink attributes, invalid values and dropped elements are each reported, with the severity of their rule, and rules that are off report nothing and do not touch others. What is called a default can be left out without effect.", "quantifier": "every element, parent, list of attributes and setting of rules", "why_tests_cant": "The verdicts come from tables of hundreds of elements and attributes; tests look at one or two of each rule.", "anchors": ["crates/oxvg_lint/src/rules/mod.rs", "crates/oxvg_lint/src/rules/no_unknown_elements.rs", "crates/oxvg_lint/src/rules/no_unknown_attributes.rs", "crates/oxvg_lint/src/rules/no_deprecated.rs", "crates/oxvg_lint/src/rules/no_default_attributes.rs", "crates/oxvg_lint/src/rules/no_xlink.rs", "crates/oxvg_lint/src/rules/no_invalid_attributes.rs", "crates/oxvg_collections/src/element.rs", "crates/oxvg_collections/src/attribute.rs"]}
{"id": "C108", "title": "The times when animations begin and end are read and written back", "statement": "Every begin or end value of SMIL (an offset, an element's begin or end or event, a repeat, an access key, a wall clock, indefinite), with any white space it may have, is read as what it says, and what is printed is read back as the same value; the same holds for durations and for min and max.", "quantifier": "every value and every spelling of it", "why_tests_cant": "The reader guesses from the last hyphen or plus sign and the last dot of a name; tests try about a dozen spellings.", "anchors": ["crates/oxvg_collections/src/attribute/animation.rs", "crates/oxvg_collections/src/attribute/animation_timing.rs", "crates/oxvg_parse/src/types/number.rs"]}
{"id": "C109", "title": "Keywords and values made of keywords and numbers are read as they are meant and written back", "statement": "Every enumerated attribute takes exactly the keywords its specification gives, with white space around them and in their case, and prints each as it was; preserveAspectRatio, viewBox, keySplines, filter inputs, link targets, colour profile names, boolean attributes, pairs of numbers and rotations are read from every spelling as the value it stands for and what is printed is one of its spellings.", "quantifier": "every keyword, value and spelling with any white space and commas", "why_tests_cant": "There are 69 tables with over 400 keywords, most without a test, and readers that try one alternative after another on a shared cursor.", "anchors": ["crates/oxvg_collections/src/attribute.rs", "crates/oxvg_collections/src/attribute/uncategorised.rs", "crates/oxvg_collections/src/attribute/filter_effect.rs", "crates/oxvg_collections/src/attribute/core_attrs.rs", "crates/oxvg_collections/src/attribute/animation.rs", "crates/oxvg_collections/src/attribute/aria.rs", "crates/oxvg_collections/src/attribute/presentation.rs"]}
{"id": "C110", "title": "The command line writes each document where it was asked to and touches nothing else", "statement": "With a path and an output, each SVG document below the path that the options choose (depth, hidden and ignored files) is written, as the command makes it, to the file of the same relative name below the output; no other file changes, a document that fails changes none, without an output the results are printed and no file changes, and a document from standard input goes to the file that was given or is printed.", "quantifier": "every tree of files, choice of options, parser, serialiser and work, and every order in which threads get to files", "why_tests_cant": "The walk runs on threads over real directories and no test covers it; outputs may lie among the inputs and parents may have to be created.", "anchors": ["crates/oxvg/src/walk.rs", "crates/oxvg/src/commands/optimise.rs", "crates/oxvg/src/commands/format.rs", "crates/oxvg/src/commands/action.rs"]}
{"id": "C111", "title": "The exit status tells whether something failed", "statement": "A command succeeds exactly when no document failed: documents that cannot be parsed, handled or written are reported, others are not, and the status of format, optimise, action and lint check (at the level asked for) says so.", "quantifier": "every tree of files, options, parser, serialiser and work", "why_tests_cant": "Status is a flag shared by threads, read (or not) after all of them end; tests do not run the binary on failing documents.", "anchors": ["crates/oxvg/src/commands/format.rs", "crates/oxvg/src/commands/optimise.rs", "crates/oxvg/src/commands/action.rs", "crates/oxvg/src/commands/lint.rs", "crates/oxvg/src/walk.rs"]}
{"id": "C112", "title": "The words of a command line are read as the actions they spell", "statement": "The list of words given to `oxvg action` is accepted exactly when it is a list of actions, each with the arguments it needs, and is then read as these actions in their order, with optional numbers taken when they are there; everything else is refused with an error, and `action list` describes the actions that are named.", "quantifier": "every list of words and every number format", "why_tests_cant": "Words are taken one after another with optional numbers decided by trying; there is no test of the command parser.", "anchors": ["crates/oxvg/src/commands/action.rs", "crates/oxvg_actions/src/actions.rs"]}
{"id": "C113", "title": "Components get usable names, their files and one line each in the index", "statement": "The component made of a document is called by the words of the name of its file, each with a capital, so that JSX takes it as a component; it is written to the file of that name with the extension jsx or tsx, and the index beside it gets one export of it; no other file changes.", "quantifier": "every file name, document, option and file system", "why_tests_cant": "Names come from any file name, and files and index are written as documents are met; no test runs the command.", "anchors": ["crates/oxvg/src/commands/jsx.rs"]}
{"id": "C114", "title": "Parts, reverses and samples of a curve are of that curve", "statement": "Dividing a curve, cutting a part out of it, and turning it round give curves that run through the same points; the place told for a point is where the curve passes it, and is told for every point of the curve; the points along a curve go from its start to its end in steps, as many as are told, and stay near each other.", "quantifier": "every curve, number, point, tolerance and rounding", "why_tests_cant": "The identities are of polynomials in all control points; the tests take one curve and one half.", "anchors": ["crates/oxvg_path/src/geometry/curve.rs", "crates/oxvg_path/src/algorithm/coords_iter.rs", "crates/oxvg_path/src/algorithm/lines_iter.rs"]}
{"id": "C115", "title": "Boolean operations give back pieces of the paths they were given", "statement": "A path becomes a polygon made of the points along its pieces; after an operation on polygons each ring of the result becomes one closed segment that follows the ring, with a line or with a part of one of the given pieces along which the edges of the ring go, and the operation gives a result for every paths.", "quantifier": "every list of paths of lines and curves, every result of the polygon operation, every rounding and every way to compare distances", "why_tests_cant": "A test sees the rings of one pair of paths; which vertices come out depends on a polygon library and on numbers.", "anchors": ["crates/oxvg_path/src/algorithm/bool_ops.rs", "crates/oxvg_path/src/algorithm/bool_ops/i_overlay_integration.rs"]}
{"id": "C116", "title": "Boxes bound what they are made from and meet where they have points in common", "statement": "The box of points is the smallest that has them all; a box contains a point, meets a box, and has a box in common with another exactly when the points say so; clamping gives the nearest point of a box.", "quantifier": "every list of points, every box and point", "why_tests_cant": "Corner orders, touching edges and empty overlaps are infinitely many cases.", "anchors": ["crates/oxvg_path/src/geometry/rectangle.rs"]}
{"id": "C117", "title": "What an editor shows for a document is what the linter says of its text", "statement": "After any openings, changes, savings and closings, the diagnostics shown for an open document are those of its present text, with their words, levels and places as the protocol counts them; nothing is shown for a closed one; the server answers what it says it answers and does not end.", "quantifier": "every sequence of events on any documents, every linter, every text and place", "why_tests_cant": "What is shown depends on the whole history of notifications; there are no tests of the server.", "anchors": ["crates/oxvg/src/commands/lint/lsp.rs", "crates/oxvg_ast/src/node.rs"]}
{"id": "C118", "title": "The visual comparison reports exactly the outputs that look different", "statement": "An output is reported when more than two per cent of its pixels are visibly apart from those of the input, and only then; pictures that are equal are never reported, and an output that cannot be drawn is.", "quantifier": "every pair of pictures of any size, every way of drawing", "why_tests_cant": "The count is over windows of all bytes, and there is no test; bounds for all pictures need a proof.", "anchors": ["crates/oxvg/src/commands/visual_regression.rs"]}
{"id": "C119", "title": "Rendering writes a picture file for each document or tells that it did not", "statement": "For each document one PNG file is written, at the output or else beside the document, and the command fails when one is missing.", "quantifier": "every list of documents, paths and outputs, every way of drawing and every refusal of the operating system", "why_tests_cant": "There are no tests of the command.", "anchors": ["crates/oxvg/src/commands/render.rs"]}
{"id": "C120", "title": "An arc read from a path is the arc that SVG means, and its parts and places are parts and places of it", "statement": "The arc made of a command goes from the current point to the point given, on an ellipse with the radii given or with the smallest larger ones in proportion that reach, in the direction and on the side that the flags say; cutting, restricting and turning round an arc gives the points of the arc; the place found for a point is within tolerance of it, and a point of the arc is found where it is.", "quantifier": "every radii, rotation, flags and points; every arc, parameter, point and tolerance", "why_tests_cant": "The mathematics of arcs is continuous; tests look at some arcs.", "anchors": ["crates/oxvg_path/src/geometry/arc.rs", "crates/oxvg_path/src/geometry/ellipses.rs"]}
{"id": "C121", "title": "An arc that is written and read again is the same arc within tolerance", "statement": "The parameters written for an arc draw, from its start, the arc itself, or one that is nowhere further from it than the tolerance; the writing comes to an end.", "quantifier": "every arc with positive radii and less than a whole turn, every tolerance and precision", "why_tests_cant": "Radii are made simple where the ends are almost opposite, which needs bounds for all arcs, and a loop that ends for all.", "anchors": ["crates/oxvg_path/src/geometry/arc.rs", "crates/oxvg_path/src/math.rs"]}
{"id": "C122", "title": "An action on the selection changes what it says on the selected elements and nothing else", "statement": "Setting an attribute, toggling a class, declaring a style property and applying a transform change that one attribute of the selected elements, each element once: the attribute has the value that was given if the element takes it; the class is added if it was missing and removed if it was there; the declaration wins over those before it unless they are important and it is not, and other properties keep their winners; the transform is applied after those that are there. All other attributes, elements, and the tree stay as they are, and the action never ends the program.", "quantifier": "every document, selection, action of these kinds, and attributes that are there already", "why_tests_cant": "What an attribute holds and how often an element is selected vary without end; tests apply single actions to single elements.", "anchors": ["crates/oxvg_actions/src/actions/manipulate.rs", "crates/oxvg_actions/src/actions/transform.rs"]}
{"id": "C123", "title": "Inserting gives each selected element one new child, and a path operation puts the merged shape into one path that stays", "statement": "Inserting adds one new empty element of the name asked for as last child of each selected element, and no invalid content; a path operation takes the selected paths in turn, puts their merger into the front-most, which is filled as it was drawn, takes the others out of the document, and changes nothing else; without paths nothing changes.", "quantifier": "every document, selection, name and operation; the merging of two shapes is any function (C117 is about it)", "why_tests_cant": "The parts of a selection may be nested, repeated or in any order.", "anchors": ["crates/oxvg_actions/src/actions/structure/creation.rs", "crates/oxvg_actions/src/actions/manipulate/path.rs"]}
{"id": "C124", "title": "A command runs with the configuration it was given", "statement": "A command that is given a file runs with the configuration in it, and reports an error if there is none; one that is given a preset runs with that; otherwise it takes the file of the current directory, else that of the user, else the defaults, and a file that is not needed does no harm. What is printed as the current configuration is the one in use.", "quantifier": "every file system, configuration, reader and writer of JSON, and command line", "why_tests_cant": "The sources of a configuration are many and override one another; each command has its own way through them.", "anchors": ["crates/oxvg/src/config.rs", "crates/oxvg/src/main.rs", "crates/oxvg/src/commands/optimise.rs", "crates/oxvg/src/commands/lint.rs", "crates/oxvg/src/commands/jsx.rs"]}
{"id": "C125", "title": "Filling in a template replaces each placeholder and nothing else", "statement": "A template comes out with each placeholder (`$imports`, `$interfaces`, `$componentName`, `$props`, `$jsx`, `$exports`) in its place replaced by what it stands for, and with everything else, in the same order, as it was; a template without placeholders is left as it is.", "quantifier": "every template, and every component whose name has no dollar sign", "why_tests_cant": "Templates nest without bound, and each place of the syntax tree has its own visitor.", "anchors": ["crates/oxvg/src/commands/jsx.rs"]}
{"id": "C126", "title": "A written arc keeps its height and does not collapse", "statement": "Where radii of an arc are rounded further than the precision asks for, the height of the arc over its chord changes by less than the tolerance. The end that is written for an arc, relative or absolute, is a multiple of the precision, never is the start, so that the arc is not dropped, is off by no more than half a unit, or one and a half if it had to be moved off the start, and is moved towards where the arc goes on the short way.", "quantifier": "every arc with radii greater than zero, start, tolerance and power of ten as precision", "why_tests_cant": "Radii, angles and rounding are real numbers; a test can sample only a few arcs near the limits.", "anchors": ["crates/oxvg_path/src/paths/segment/convert.rs", "crates/oxvg_path/src/math.rs"]}
{"id": "C127", "title": "Arcs that are made straight are straight", "statement": "An arc that counts as straight within a tolerance, and so is replaced with the line to its end, has no point further away from that line than the tolerance.", "quantifier": "every arc of up to a whole turn and every tolerance", "why_tests_cant": "Sweep, radii and chord are real numbers, and the arcs for which it fails have ends that almost coincide.", "anchors": ["crates/oxvg_path/src/geometry/arc.rs", "crates/oxvg_path/src/paths/segment/simplify.rs"]}
{"id": "C128", "title": "Joining neighbouring arcs draws what they draw", "statement": "Two arcs of the same ellipse, the second of which goes on where the first ends, are joined to one arc that runs over the first and then the second and ends where the second ends, or, if they make up a whole turn but for the angular tolerance, to two half turns.", "quantifier": "every two arcs of the same ellipse, every tolerance and way to measure their lengths", "why_tests_cant": "Whether arcs are joined depends on real numbers that a test cannot range over, as does what comes out.", "anchors": ["crates/oxvg_path/src/geometry/arc.rs", "crates/oxvg_path/src/paths/segment/simplify.rs"]}
{"id": "C129", "title": "A font variant is written with the words it was read from", "statement": "Whenever the value of font-variant is read, the text written for it has the same words, each as often, in some order, and is read as the same value again.", "quantifier": "every text, of any characters, that is read without an error", "why_tests_cant": "The words of six families may come in any number, order and spacing, and the reader's loops go on differently after each.", "anchors": ["crates/oxvg_collections/src/attribute/presentation.rs", "crates/oxvg_parse/src/lib.rs"]}
{"id": "C130", "title": "Every font variant of the language is read", "statement": "A text of one or more of the words of font-variant, no two of which choose the same feature, is read, in whatever order the words come.", "quantifier": "every text whose words the language allows together", "why_tests_cant": "There are as many orders as permutations of up to fifteen words, and tests tried one value of two words.", "anchors": ["crates/oxvg_collections/src/attribute/presentation.rs", "crates/oxvg_parse/src/lib.rs"]}
{"id": "C131", "title": "A clip is read as it is meant and written so that it is read again", "statement": "Every value of clip that the language allows, `auto` or a rectangle whose four sides are lengths or `auto`, is read with its sides in their order, and the text written for a clip is read as that clip.", "quantifier": "every text of the language with any white space and separators, and every clip whose numbers the printer of numbers writes faithfully", "why_tests_cant": "The numbers, their notations and what separates them are unbounded; the tests have no clip.", "anchors": ["crates/oxvg_collections/src/attribute/presentation.rs", "crates/oxvg_parse/src/types/number.rs"]}
{"id": "C132", "title": "The order of painting is read as it is meant and written so that it is read again", "statement": "A text of paint-order is read if and only if it is `normal` or one to three different steps, as the steps named followed by the others in the normal order; each step comes once in what is read, the writer does not panic on it, and what it writes is read as the same order.", "quantifier": "every text, of any characters, and every order of the three steps", "why_tests_cant": "White space is unbounded, and that no other text is read can not be tested.", "anchors": ["crates/oxvg_collections/src/attribute/presentation.rs"]}
{"id": "C133", "title": "Frequencies, numbers of repetitions and size adjustments are read as they are meant", "statement": "A frequency in Hz or kHz, a repeatCount that is a number above zero or `indefinite`, and a font-size-adjust that is a number or `none` are read as they are meant; no other number is read as a repeatCount; and what is written for such a value is a text of the language that is read as the value.", "quantifier": "every text of the language with any white space around it, and every value whose numbers the printer of numbers writes faithfully", "why_tests_cant": "The numbers and their notations are unbounded, and a unit that is written and read alike but not as the language has it passes every test of a round trip.", "anchors": ["crates/oxvg_collections/src/attribute/core_attrs.rs", "crates/oxvg_collections/src/attribute/animation_timing.rs", "crates/oxvg_collections/src/attribute/presentation.rs"]}
{"id": "C134", "title": "Transforms keep their effect between styles and attributes", "statement": "When the transform of a style becomes that of an attribute, or the other way round, every point of the plane is moved to the same place; and a transform of an attribute that has a matrix comes back from a style.", "quantifier": "every list of transforms, every point, and whatever lengths that depend on the surroundings are", "why_tests_cant": "Lists, numbers and points are unbounded, and no test converts a style.", "anchors": ["crates/oxvg_collections/src/attribute/transform.rs", "crates/oxvg_collections/src/attribute.rs"]}
