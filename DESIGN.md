# Design

Target: noahbald/oxvg (Rust), read as text in /repo, never built or run here.
Prover: Coq 8.16.1. Everything under `rocq/theories`, logical name `Verif`.

## Layout

Each area has up to four files:

* `XModel.v`  – executable Gallina model, one definition per modelled function, each with a
  comment citing file and lines in /repo and the simplifications made. No proofs.
* `XSpec.v`   – the independent specification the property is stated against (written without
  using the model's helpers).
* `XProofs.v` – lemmas.
* `XProps.v`  – only the property theorems (`exact lemma.` + `Print Assumptions`) and the
  non-vacuity `Example`s beside them.

Naming: `Cnn_…` full property, `Cnn_…_partial` a proved part of a property that is false or not
fully modelled, `Cnn_…_refuted` a witness that the full statement is false of the faithful model.

## Trusted base

* Coq's kernel (and `vm_compute`, which is part of it).
* What `Print Assumptions` reports for each theorem. Two cases only:
  * "Closed under the global context" for every theorem outside the `Transform*`, `Ellipse*`, `Stroked*`, `Arc*`, `Sagitta*`, `Weld*` and `Recast*` files;
  * for the theorems of `TransformProps.v` (C29, C30, C58), `EllipseProps.v` (C72), `StrokedProps.v` (C73), `ArcProps.v` (C120, C121), `SagittaProps.v` (C126), `WeldProps.v` (C127, C128) and `RecastProps.v` (C134), which are about real numbers, a subset
    of these axioms of Coq's standard library, and nothing else:
    `ClassicalDedekindReals.sig_forall_dec`, `ClassicalDedekindReals.sig_not_dec`,
    `FunctionalExtensionality.functional_extensionality_dep`, `Classical_Prop.classic`.
  No axioms of our own, no other library's axioms. (A checker that lists the axioms of every loaded
  library, used or not, also shows the `Coq.ssr.ssrunder.Under_rel.*` parameters of the standard
  library, which come in with `Lia`, and the `Coq.Reals.Rdefinitions` symbols that the real numbers
  seal by module types; no theorem outside TransformProps.v, EllipseProps.v, StrokedProps.v, ArcProps.v, SagittaProps.v, WeldProps.v and RecastProps.v depends on them.)
* The reading of the Rust code: each model definition is a hand translation. Not modelled unless
  stated: the Rust allocator and lifetimes, `RefCell` borrow panics, floating-point rounding,
  third-party crates (lightningcss, roxmltree, selectors, ryu, cssparser, ignore, rayon),
  the file system and threads. Where a third-party result matters it is an argument of the model.

## Plan per property

| id | model | proof |
|----|-------|-------|
| C01 | heap of five links per node (`Cell`s of node.rs) as `nat -> links`; every edit transcribed as a sequence of link writes | refinement to `kids : nat -> list nat` (abstract child lists); representation predicate by doubly-linked segments; invariant over all op sequences. `before` is checked separately: it calls `remove` on a node whose parent link is already set. |
| C02 | four-cursor iterator over the heap | simulation with the remaining sublist, induction over the schedule |
| C03 | `retain_children` loop on the heap | run on a well-formed heap; refute/prove |
| C04 | `sort_child_elements` relinking | permutation + relinking; refute/prove |
| C05 | `set_local_name` (alloc + replace_with) | refinement; refute/prove |
| C06 | `append_child`, `prepend` | refinement for detached nodes; refute/prove for attached |
| C07 | arena as id table + reorder | invariant: table is a bijection; preorder numbering |
| C08 | visitor recursion with flags over rose trees, emitting an event trace | trace equals an independent specification by tree induction |
| C09 | escape functions on code-point lists | structural induction with an independent decoder |
| C10 | writer state machine over call sequences + serialiser; independent reader | reader ∘ writer = id by induction on trees |
| C11 | comment / CDATA / PI writers | substring reasoning; refute/prove |
| C12 | `preserve_whitespaces` flag of the writer | refute/prove |
| C13 | attribute vector operations | refinement to an ordered map over op sequences |
| C14 | comparator and stable sort | comparator is a total preorder; permutation/sortedness/idempotence |
| C15 | class list over the attribute vector | invariant over op sequences |
| C16 | `GeneratedId` | bijective base-52 numeral argument |
| C17, C18 | id collection, rename and removal passes over a flat document (elements with id and references) | simulation; refute/prove |
| C19 | prefix function and its application | injectivity/idempotence; refute/prove |
| C20–C23 | cursor parser over code points with byte lengths; number and path parser with fuel | termination measure; refute/prove; round trip of printer and parser |
| C24, C25, C60 | reading and writing of segments over exact rationals; independent interpreter of commands after SVG 2 | simulation of pen position and control point; refute/prove |
| C26–C28 | attribute trees with inheritance semantics and a transform monoid | tree induction, monoid laws |
| C29–C31 | 2x3 matrices over R | ring/field |
| C32–C34, C47 | namespace declarations over trees, two-way map | tree induction |
| C35 | cascade over declaration lists | comparison with a CSS specification |
| C36, C37 | configuration records as maps from job to option | algebra, induction over the job list |
| C38, C49, C50, C54 | rose-tree transformations | tree induction; refute/prove |
| C39 | fold over style elements | induction |
| C40, C41, C48 | action encoder/decoder, selection state machine | round trip, invariant over action sequences |
| C42 | list of bytes | induction |
| C43, C44 | list and clock-value printers/parsers | round trip; refute/prove |
| C45 | string normaliser | induction |
| C46 | id/reference sets | set reasoning |
| C51 | comparison functions on names | laws; refute/prove |
| C52 | shapes to command lists | interpreter equality |
| C53 | option algebra on viewBox/width/height | case analysis |
| C55 | whitespace collapsing of the writer (part of the XML writer model) | induction on the text |
| C56 | default prefix from the path components | computation; refute/prove |
| C57 | SVGO plugin list folded over the configuration | induction over the list |
| C59 | transform and clock readers on arbitrary text | totality of each parser step; refute |
| C58 | rounding of transform arguments over R | error bounds; refute |
| C61 | the writer with indentation | the printed tree is the original with white space inserted; simulation with a layout function |
| C64 | the walk of C38 with a plan of edits | as C38, any plan |
| C65 | cleaning a tree top-down on the styles of C35 | induction over the tree, final values of chains |
| C66, C67 | tables of permitted names and defaults against those of SVG 2 | computation on the tables, case analysis on prefixes |
| C68 | sets of names, ids and classes over a tree with stylesheets; places of elements in the specification | a selector that matches has its rightmost parts in the sets; induction over the tree |
| C69 | loop over neighbours with gathered data; outlines as lists of subpaths | invariant on the gathered group |
| C70 | edits on computed styles of Cascade*, documents as trees; look = used values after CSS | used values before and after for the three cases; induction on the tree |
| C71 | path data of Segment*, matrices over the rationals; drawing before and after | pen state as image of the pen state, induction on commands; refute the flag |
| C72 | radii and rotation over R, ellipses as sets of points | quadratic forms; eigenvectors; the sign and the arc cosine; refute NaN |
| C73 | what attributes and stylesheets say per property; pen as a set of points, dashes as lengths on the screen | similar matrices take circles to circles; cases of the job; refute |
| C74 | the cascade over style elements and attributes, selectors as tokens with an abstract context | what is left and what is moved interleave to what was there; a stable sort by specificity and the last wins is the cascade; refute |
| C75 | used values of the radii from attributes, CSS and the viewport | case analysis over which radii are absent, auto, lengths; refute |
| C76 | the table of flags from C55, a small semantics of attribute selectors and of languages | evaluate the flags of the whole table; protected attributes stay; refute |
| C77 | gradients, templates and paints by id; the look of a paint after SVG 2 | the run in closed form, then chains by induction on their length; refute |
| C78 | values by kind, lengths by unit; closeness after CSS Values with sizes of relative units as a parameter | the visitors as one step by cases, lemmas of C60 for rounding; refute |
| C79 | the program's tables of attributes; computed values along a chain for any set of inherited properties | the tables by computation, then induction on the chain; refute |
| C80 | values by kind with is_empty; what XML, HTML, SVG and SMIL make of empty values | filters and lookups; refute |
| C81 | trees with resolved names and declarations; what is drawn, what selectors see, scopes of prefixes | a general filter of trees, induction; refute |
| C82 | Trees as in C81 with character data; the glyphs in document order with the chain of their ancestors, in switch only the first child that passes; induction over the tree | whitespace, switch: refuted |
| C83 | Exact rationals; monotone chains, the hill climbing for support points (unimodality), the search with simplices; apart: the last direction separates; meet: barycentric coordinates of the origin; rounds: the squared distance of the edge from the origin decreases strictly, within a finite set of pairs | touching, concave shapes: refuted |
| C84 | Trees of paths with coordinate systems; the test is C83's intersection with the rectangle of the view box, separated paths have no point in it; the walk only changes paths | strokes, references, inner coordinates: refuted |
| C85 | Cascade of six levels as specification; folding of insertions is the last declaration; per property, either all declarations convert or all stay | author rules, shorthands, animations: refuted |
| C86 | Insertion sort for any comparison; the comparison is lexicographic in the priority, the place in the list and the name, hence an order; uniqueness of the sorted list | hyphens: refuted |
| C87 | As C86; nodes that are not elements are moved to the front one by one, elements are sorted by an order | text nodes, duplicate ids: refuted |
| C88 | Derivatives of regular expressions agree with their languages; splitting at the separator as a relation; the retained attributes are a filter | alternatives, colours: refuted |
| C89 | The picture is an inductive relation that follows uses; it is deterministic. The document after the job is drawn by induction on the relation before, where repeated paths are expanded uses | references, defs, style, x/y, ids, nesting, children, prefix: refuted |
| C90 | Styles as sets of possible looks; the safety of each flag as documented; bits of the options by testbit | dynamic caps, nonzero, square caps, use: refuted; ComputedStyles not modelled here |
| C91 | The stroke as a set of rational places of lines and Bezier curves; closeness of drawings in both directions. Joined curves by de Casteljau; straight ones by projection on the chord and search on a grid of parameters; lines on a grid have cross products that are whole | loops, overshoot, steps, corners, closing: refuted; arcs |
| C92 | Tokens as a relation; the white space of the code is that of XML when no other occurs; the document by its tree | glyphs, code, no-break spaces, namespaces: refuted |
| C93 | Source documents with resolved names; what runs code as in SVG and HTML; the reading of names as in C33 and C34 | missing handlers, links, external, default namespace: refuted |
| C94 | What is left of a tree without the elements of a predicate, as a relation with one result; names as in C93, classes as in the list parser | plain href, case, hosts, quotes, root: refuted |
| C95 | What React does with a name, from its documentation, apart from the code; the table is checked row by row | data, prefixes, clash, unlisted: refuted |
| C96 | Evaluation of JSX as in its specification (lines and spaces of text, dropped values) to a tree; the tree of the document as a relation | braces, style, spaces, prefixes, important, adjacent text: refuted |
| C97 | Evaluation as in C96 under any properties; the changes as a relation on the rendered tree | dimensions, label, nested title, order, numbers, prefix, react-native: refuted |
| C98 | Scope, single declaration and shape of imports as for JavaScript modules, on the list of imports, parameters, wrappers and the uses in the body | missing types, clashes, broken imports, Preact, panic: refuted |
| C99 | Meaning of selectors as relations on places in the tree; a component-wise equivalence, then combinators, lists and the breadth-first walk | capitals, printed values, case, namespaces, :empty, pseudo-classes: refuted |
| C100 | Positions as counts of earlier or later siblings; an invariant that each cache holds the right position for each address | same address, scope elsewhere: refuted |
| C101 | Removal as a relation between documents; matching of an element does not depend on what was removed when the selector only asks for other attributes beyond the element itself | order, aliases, half-done failures: refuted |
| C102 | Lists of attributes before and after; lookups by the written name | colons, undeclared prefixes, no class, className, aliased class: refuted |
| C103 | Relation between documents element by element; background area of an element as attribute over style | style with a filter, shifted areas: refuted |
| C104 | Value of a property by the chain of ancestors, before and after | inheritance into masks, fallbacks: refuted |
| C105 | Resolution of prefixes by innermost declaration, as in Namespaces in XML; well-formed attribute lists | panic, duplicates, prefixed root, rebound prefixes, no namespace: refuted |
| C106 | Lines as the pieces between line breaks; mark as the columns of a range | panic at the end, empty values, empty tags, text that is not ASCII, ranges over lines: refuted |
| C107 | Tables of SVG 2 (as for C66 and C67): elements, attributes, children, initial values; list of dropped elements | inherited values, divisor, mask-type, data attributes, dropped elements, other prefixes: refuted |
| C108 | Spellings of each value as a relation between values and texts (SMIL grammar) | hyphens in names, second minus signs, counts beyond 32 bits, names outside ASCII: refuted |
| C109 | Keywords of the specifications as a list; spellings of compound values as relations | newer keywords, `additions text`, white space after filter inputs, defer, doubled commas, values outside ASCII: refuted |
| C110 | A file system as a finite map; chosen files as a relation from the documentation of the options; fold over any permutation of the listing | in-place output, directory as output of a file, several paths, overlapping output, `.`: refuted |
| C111 | Reports as the observable; status against reports | optimise, action, lint check, missing and non-UTF-8 files: refuted |
| C112 | Spelling of each action as an inductive relation; reading accepts exactly concatenations of spellings | documented example, left-out arguments, panics: refuted |
| C113 | Names as words between separators; index as lines; one document and a list of documents on the file system of C110 | digits first, clashes, repeated runs, --no-index, default output, failing documents: refuted |
| C114 | Rational coordinates; parts by an equation of polynomials for all numbers; Newton steps with any rounding | point not found, one point too many, closed curves, long steps: refuted |
| C115 | Polygons of the library, comparison of sums and rounding as parameters; a relation of pieces following a ring | panics on vertices of chords, closed curves and closing edges: refuted |
| C116 | Boxes as sets of points | proved |
| C117 | Events and notifications as lists; what is shown as a fold; places by the specification of C42 | stale diagnostics, columns, requests: refuted |
| C118 | Squares of distances in integers; windows counted against pixels | both directions refuted between 8/7 and 8 per cent |
| C119 | Drawing as a parameter | not a PNG: refuted |
| C120 | Reals; the arc of a command as a predicate of centre, radii and angles (SVG 2, 9.5.1); chords in units of the radii | radii under 1/100000: refuted |
| C121 | Uniqueness of the arc of a command up to whole turns; the divisor and halving loops with fuel that is shown to suffice | the tolerance and the end of the loop: refuted |
| C122 | Relations between the document before and after, with the attribute of each action; winners of declarations as last important or last | selected twice, foreign elements, unread transforms, two colons, importance: refuted |
| C123 | New nodes at the end of the arena; merging as a fold over the selection in order | content, prefixes, doubles, order, fill rule: refuted |
| C124 | Files as any function, JSON as any reader and writer; the meaning of a configuration job by job | ignored options, broken files, printed rules: refuted |
| C125 | A relation that says what each node becomes, with the places where a placeholder counts; the visitor computes it | short forms and setters: refuted |
| C126 | Height of a chord by Pythagoras; ends by the rounding error and a unit tangent that has a part of at least a half; direction by the sign of a sine | larger arcs: refuted |
| C127 | The area of ends and point as a product of sines and cosines, greatest in the middle | loops, thin ellipses: refuted |
| C128 | Reparametrisation of the joined arc by the two; whole turns as two halves | arcs that go back, more than a turn: refuted; different ellipses not covered |
| C129 | A machine on words that follows the reader on texts; stuck texts stay as they are; permutation of the words as invariant | |
| C130 | The machine on words in the order of the families | two words of a family, other orders: refuted |
| C131 | The reader of four numbers of C109 with what may follow a number widened to the closing bracket | sides with units or `auto`: refuted |
| C132 | The loop over words both ways: on texts of the language, and by inversion on any text; the few lists of steps by computation | |
| C133 | The first character of a number begins no name, so the keyword is left and the number is read; a unit is a name that ends the number | kilohertz: refuted |
| C134 | Both kinds of transforms as maps of the plane, item by item | scaleX: refuted |
| C63 | tables of names | computation on the table, case analysis on prefixes |
| C62 | the attribute trees of C26 with the coordinates of each effect | same walk with a pair as state |

## What is modelled

| files | code | left out |
|-------|------|----------|
| Dom* | oxvg_ast node.rs links, element.rs and node.rs edits, child iterators | `RefCell` borrow state, attribute storage of nodes |
| Arena* | arena.rs allocation and reordering | the typed arena behind it |
| Visit* | visitor.rs traversal, flags, prepare | callbacks that edit the tree while it is walked |
| Xml* | xmlwriter.rs, serialize.rs | style sheet printing (text of a rule is given); attributes on their own lines are modelled but no theorem covers them |
| Name*, Attr* | name.rs, attribute.rs, class_list.rs, sorting job, id tables | values of attributes |
| Ids* | cleanup_ids.rs, prefix_ids.rs, generated ids | the reference finder's regular expressions are transcribed by hand |
| Parse*, Path* | oxvg_parse lib.rs, oxvg_path parser/formatter | digit generation of floats (a decimal stands for its double) |
| Text*, List*, Clock* | source positions, whitespace clean-up, list and clock values | number printer (any printer that satisfies the stated hypotheses) |
| Jobs* | jobs/mod.rs configuration, running order, SVGO conversion, config.rs | deserialising parameters |
| Segment* | oxvg_path segment/convert.rs (reading; writing of lines and curves), optimize.rs without options | writing of arcs, simplification options, floats are rationals |
| TransformText*, Value* | reading and writing of transforms; panics of transform and clock readers | CSS transforms (reader and printer are arguments) |
| Transform* | attribute/transform.rs algebra, convert_transform.rs | floats are reals; lengths of printed forms and digit counts are arguments |
| Ns* | parse/roxmltree.rs: names, prefixes and the two-way namespace map | depth limit, entities, doctype, roxmltree itself (its namespaces in scope are transcribed) |
| Lint* | oxvg_lint rules/mod.rs: tracking of ids and namespaces, no_unused_ids, no_unused_xmlns | the other rules, ranges and severities |
| NsJobs* | remove_unused_n_s.rs, remove_xlink.rs | aliased prefixes and unreadable values of xlink attributes |
| Group* | move_group_attrs_to_elems.rs, move_elems_attrs_to_group.rs, collapse_groups.rs | style sheets, the order of moved attributes, values are texts |
| Action*, Select*, Info* | oxvg_actions state.rs, effects.rs, info.rs, selection actions | what the editing actions do to elements; selectors; errors after recording; namespaces are written prefixes |
| Elem* | element.rs and attribute.rs tables of oxvg_collections, recognition of names | values of attributes |
| Walk* | visitor.rs traversal with callbacks that edit the links of Dom* while the walk goes on | `within_foreign_object` (see Visit*) |
| Node*, Scripts* | remove_scripts.rs on Walk* | values are texts |
| Defs* | remove_empty_containers.rs, remove_useless_defs.rs on Walk* | computed style of a group (an argument) |
| Policy* | any visitor that removes or unwraps nodes from its callbacks, on Walk* | other edits |
| Shape* | convert_shape_to_path.rs, reading of `points` (collections attribute/path.rs) on Path*, Segment* | numbers are rationals; selectors as lists of components; upper case in selectors |
| Merge* | merge_styles.rs, over the style elements in document order | rules other than `@media` and `@import` are opaque; CDATA nodes (the tree has none) |
| Cascade* | style.rs `ComputedStyles` | properties and values are numbers (no shorthands, no conversion between properties and attributes); selector matching is an argument; nested rules |
| Hidden* | remove_hidden_elems.rs, both passes and `exit_document` | computed styles and the ids attributes refer to are arguments; removal is a set of node numbers over the tree at the start (C08 and C64 justify the walk) |
| Known* | remove_unknowns_and_defaults.rs with the tables of permitted children, attributes and defaults | values are the texts they are written as; instructions |
| Defaults* | the same job over whole documents, on Cascade* | presentation attributes only, all permitted; the tables are arguments |
| Usage* | minify_styles.rs, `has_scripts` | minification itself (an argument); rules nested in style rules; simple selectors other than names, ids and classes are opaque and do not look at the style attribute |
| Join* | merge_paths.rs on Segment* | the test whether outlines meet, and whether a computed style forbids merging (arguments) |
| Paint* | remove_useless_stroke_and_fill.rs on Cascade* | how values are read (arguments), shorthands, attributes with other prefixes |
| Apply* | apply_transforms.rs:248-384, 426-428 on Segment* | rounding of floats, which elements are transformed and their strokes |
| Ellipse* | apply_transforms.rs:336-359, 386-459 over R | rounding of floats |
| Stroked* | apply_transforms.rs:56-246 over R | units, how the winning declaration is found (Cascade*), markers, transform-origin, animations |
| Inline* | inline_styles.rs:37-716 | useMqs, usePseudos, pseudo-elements, nested rules, how the text of a selector is parsed again, minify_style |
| Circle* | convert_ellipse_to_circle.rs:52-96 | numbers are rational; calc() and attributes that cannot be read are left out |
| Deprecated* | remove_deprecated_attrs.rs:18-163, attribute.rs:376-381 | selectors as lists of simple selectors, of which those that are not about attributes are opaque; how CSS is parsed (lightningcss) |
| OneStop* | convert_one_stop_gradients.rs:52-284 | removal of empty defs; errors of stylesheets; the order of elements with equal ids |
| Values* | content_type.rs:433-651, cleanup_numeric_values.rs:28-76, cleanup_list_of_values.rs:28-76 | floating-point numbers (exact here); how numbers are printed; angles, frequencies and so on are plain numbers |
| GroupAttrs* | remove_non_inheritable_group_attrs.rs:36-75 | values of attributes are text |
| Blank* | remove_empty_attrs.rs:32-62, content_type.rs:194-240 | how values are parsed |
| Strip* | remove_comments.rs:50-108, remove_doctype.rs:35-50, remove_x_m_l_proc_inst.rs:36-57, remove_metadata.rs:35-56, remove_title.rs:38-60, remove_desc.rs:43-68, remove_editors_n_s_data.rs:47-118 | regular expressions (any predicate); white space beyond ASCII, U+0085 and U+00A0 |
| EmptyText* | jobs/remove_empty_text.rs:31-69 | serialization of options |
| Gjk* | oxvg_path/src/gjk_intersection.rs:7-336, geometry/point.rs:514-516, 581-584, 648-655 | floating point (arithmetic is exact, no NaN but for empty boxes), the points made of arcs (248-277), which are given |
| OffCanvas* | jobs/remove_off_canvas_paths.rs:49-166, with Gjk* | reading of the path (its segments are given), floating point, arcs as in C83 |
| ToAttrs* | jobs/convert_style_to_attrs.rs:52-121, oxvg_collections/src/attribute.rs:2611-2642, 2682-2732, oxvg_ast/src/attribute.rs:222-233 | minification by lightningcss (an argument, assumed to keep what is declared), values (numbers) |
| Sort* | jobs/sort_attrs.rs:52-82, jobs/sort_defs_children.rs:35-95, oxvg_ast/src/attribute.rs:288-337, oxvg_ast/src/element.rs:679-692, oxvg_collections/src/name.rs:351-355, atom.rs:100-104 | the algorithm of the standard library for more than twenty items; the length of names is in characters |
| RemoveAttrs* | jobs/remove_attrs.rs:91-177 | the reader of regular expressions (an argument that gives the top-level alternatives), expressions with anchors, look-around or classes; values as they are printed |
| Reuse* | jobs/reuse_paths.rs:26-297, oxvg_ast/src/node.rs:449-455, 642-649, oxvg_ast/src/element.rs:397-428, oxvg_ast/src/visitor.rs:312-349 | geometry and paint are opaque numbers; href and xlink:href are one attribute; x and y are one; of style only the fill; the walk does not visit the elements that the job adds; text inside of paths |
| Options* | utils/style_info.rs:14-145, jobs/convert_path_data.rs:45-158, oxvg_path/src/optimize.rs:8-95, oxvg_ast/src/style.rs:72-99, 166-177 | ComputedStyles is an input; paints and markers are opaque |
| Simplify* | oxvg_path/src/paths/segment/simplify.rs:14-93, 199-381, paths/segment.rs:162-167, optimize.rs:127-137, geometry/point.rs:514-516, 581-633, 671-673, geometry/curve.rs:289-297, 427-443 | arc_curves (off), straight and joined arcs; numbers are rational; lengths compared as squares; the ratio of joined curves (square roots) is an argument |
| Clean* | jobs/cleanup_attrs.rs:49-95, collections attribute.rs:392-401, 479-492, the kinds of type Anything | parsing of values of other types |
| Script* | jobs/precheck.rs:48-136, oxvg_ast/src/visitor.rs:386-401, parse/roxmltree.rs:339-342 | the filter of the walk for other jobs |
| Prune* | jobs/remove_raster_images.rs, remove_elements_by_attr.rs, remove_style_element.rs, the walk of visitor.rs:318-378 | links between nodes (C04) |
| JsxNames* | oxvg_jsx/src/utils/attr_to_jsx_str.rs, the calls in swc.rs | heck's camel case of style names (an input) |
| Jsx* | oxvg_jsx/src/swc.rs:42-313 | swc's printer |
| Preset* | oxvg_jsx/src/swc/preset.rs:27-512 | swc's parser of expressions (an input) |
| Module* | oxvg_jsx/src/swc/get_variables.rs:44-610, lib.rs:54-96, config.rs:127-377 | templates, printing, the optimiser |
| Matcher* | oxvg_ast/src/selectors.rs:196-541, element.rs:433-457, 527-554, 829-848, attribute.rs:162-168 | reading of selectors from text, flags, Bloom filter; the crate selectors (0.39) is modelled from its known behaviour; printing of values is a parameter |
| Bare* | remove_attributes_by_selector.rs | reading of selectors from text |
| Root* | add_attributes_to_s_v_g_element.rs, add_classes_to_s_v_g_element.rs, remove_x_m_l_n_s.rs; element.rs:129-186, 305-307, attribute.rs:99-111, 212-233 | reading of the options; the order of a hashed set is a parameter |
| Backing* | cleanup_enable_background.rs, presentation.rs:330-384 | style sheets, aliased style attributes |
| Tint* | convert_colors.rs, content_type.rs (paints and colours) | style sheets; colours are numbers |
| Sink* | markup5ever.rs:72-305, name.rs:155-168 | the tokenizer and tree builder of xml5ever; comments, text |
| Excerpt* | error.rs:161-241 (printing), utils.rs:21-36, parse.rs:134-187 | colours, the order of reports |
| Verdict* | rules/mod.rs:55-167 and the six rules of one element | ranges and help texts; values are texts with whether they were read |
| Onset* | animation.rs:29-217, animation_timing.rs:207-300, number.rs:48-67 | RepeatCount and RepeatDur; lists of begin values |
| Keyword* | enum_attr! (attribute.rs:93-143) with its 69 uses, PreserveAspectRatio, ViewBox, ControlPoint, In, Target, ColorProfileName, Boolean, NumberOptionalNumber, Rotate, TrueFalse(Undefined) | Orient, Radius, RefX, RefY, Length (CSS values of lightningcss); media queries; EnableBackground |
| Shell* | walk.rs:18-180, commands/optimise.rs:41-111, commands/format.rs:36-84, commands/action.rs:128-182, commands/lint.rs:21-41 | threads as an order of the files, listing before handling; links; output of sizes; which files are ignored is a parameter |
| Command* | commands/action.rs:184-367 (ActionList::run, parse) | texts of the descriptions; `--derive-state`, which nothing reads |
| Export* | commands/jsx.rs:267-367 (run), 568-620 (path_to_component_name, append_to_index_js) | transform itself (C8x), templates (369-536), resolve_config |
| Bezier* | geometry/curve.rs:87-142, 373-632, 663-874, algorithm/coords_iter.rs:1-57, 88-151 (curves), algorithm/lines_iter.rs | arcs (59-86, 110-129), is_convex, types, smooth forms; rounding of doubles other than of the place found |
| Overlay* | algorithm/bool_ops.rs:95-121, algorithm/bool_ops/i_overlay_integration.rs:13-18, 78-152, 205-346, geometry/rectangle.rs, geometry/point.rs:413-415, geometry/line.rs:207-210 | arcs, i_overlay, the search tree with its larger boxes, unary_union |
| Server* | oxvg/src/commands/lint/lsp.rs | the parser and the rules (a parameter), concurrency of handlers, defaults of tower_lsp_server |
| Screen* | oxvg/src/commands/visual_regression.rs:54-73, 117-167, commands/render.rs:39-71 | drawing (a parameter), screenshots |
| Arc* | oxvg_path geometry/arc.rs:15-32, 91-100, 125-172, 233-294, 354-453, 616-651, 740-769, 841-886, 937-989, geometry/ellipses.rs:82-121, math.rs:33-89 | rounding of floating point numbers (reals), fit_curve, merging of arcs, smart rounding of radii |
| Enact* | oxvg_actions actions/manipulate.rs, actions/transform.rs, actions/structure/creation.rs, actions/manipulate/path.rs, with oxvg_ast element.rs:168-186, 245-271 as cited | reading and writing of attribute values and declarations, the merging of two paths, computed styles for the fill rule (all any function) |
| Config* | oxvg main.rs, config.rs, commands/optimise.rs:41-58, 113-145, commands/lint.rs, commands/jsx.rs:205-256, 538-549, oxvg_jsx lib.rs:70-78, oxvg_lint parse.rs:30-57, rules/mod.rs:34-80 | JSON, clap, the file system apart from which files there are |
| Template* | oxvg commands/jsx.rs:369-536 | parsing and printing of templates, syntax outside the visited kinds |
| Sagitta* | oxvg_path paths/segment/convert.rs:474-536, 588-612, math.rs:13-28 | floating point; the choice of the shorter command (C17) |
| Weld* | oxvg_path geometry/arc.rs:89-92, 149-151, 202-213, 457-459, 497-582, 698-707, paths/segment/simplify.rs:85-89, 293-341 | floating point, the length of an arc (any function), debug assertions |
| Feature* | oxvg_collections attribute/presentation.rs:495-645, 681-744, 746-801, 803-889, 1124-1263, attribute.rs:112-142 | the surrounding `Inheritable` |
| Clip* | oxvg_collections attribute/presentation.rs:162-224 | printing of numbers is a parameter |
| Order* | oxvg_collections attribute/presentation.rs:1265-1348 | the kind of the error for repeated steps |
| Tally* | oxvg_collections attribute/core_attrs.rs:204-246, attribute/animation_timing.rs:290-328, attribute/presentation.rs:449-478 | the kind of the error for a repeatCount of at most zero; printing of numbers is a parameter |
| Recast* | oxvg_collections attribute/transform.rs:419-497, 577-590 | floating point numbers are real numbers; matrices of lightningcss are an argument; the units and calculations of lengths |
| View* | remove_view_box.rs, remove_dimensions.rs | numbers are rationals; `to_px` of lightningcss as in its documentation; units relative to fonts |

## Findings

Properties the unchanged code violates, each with a witness theorem.

* C01: `Element::before` always leaves inconsistent links.
* C03, C04, C05, C06: `retain_children` does not relink the kept children; `sort_child_elements`
  leaves the new first child's previous sibling; renaming an element drops its children; appending
  an attached node leaves it in its old place as well.
* C07, C08: a cloned allocator repeats ids; a skip request made while leaving an element leaks to
  the next one.
* C10, C11, C12, C55: newlines and tabs in attribute values, carriage returns in text, style text,
  comments and instructions are written unescaped; an instruction that is not first fails;
  `xml:space` is never restored; Unicode spaces are collapsed.
* C13, C14, C15, C51: setting matches names but reading matches ids; ties between aliased and
  unknown attributes depend on the original order; `replace` can duplicate a class; equality,
  order and hash of names disagree.
* C17, C18, C19, C56: renaming can capture another reference; referenced, numeric or encoded ids
  can be removed; prefixing can make two ids equal; the first path component is used as file name.
* C20–C23: `M0 0Z1 1` never ends; trailing dots and non-ASCII text break or panic number parsing;
  exponents lose digits; repeated closepaths are lost; cursor primitives skip from both ends or
  overrun.
* C43, C44: quotes swallow list items; negative clock parts are misprinted.
* C36, C57: `omit` is ignored without `extends`; the object form of preset-default is rejected.
* C29: `matrix(1 0 0 1 1 1)` is removed: `is_identity` takes a translation by (1, 1) for an
  identity.
* C58: a matrix of whole numbers is decomposed with no decimals, so `matrix(1 1 -1 1 0 0)` becomes
  `rotate(45)`; a precision of 20 or more rounds to whole numbers.
* C31, C59: 2048 transforms panic; a CSS transform before another item is not read back; non-ASCII
  text panics the readers of transforms and clock values.
* C24: `M0 0L5 5L5 5L6 0` becomes `m0 0 5 5Zl1-5`: a line of no length is written as closepath. The
  default convertPathData does this too when the path has a stroke with line caps, as it then keeps
  such lines; an arc to its own start has the same fate. `S` after `Q` and `T` after `C` are read
  with the wrong control point, a cubic after a quadratic can be written as `S`, and the control
  point at the end of one subpath is used at the start of the next.
* C25: `M0 0L5 5M5 5L6 6` becomes `m0 0 5 5Zm5 5 1 1`; `M5 5Z` becomes `M5 5`. (Not modelled: the
  option removing the closing line drops a closepath whose last point is not the start.)
* C60: errors of relative commands add up.
* C34: `<svg:svg xmlns:svg="…">` loses its prefix, as the name is looked up before the declaration
  is recorded; a declaration repeated by a later sibling is dropped (its names become undeclared, or
  move to an outer namespace of the same prefix); with `xmlns="u" xmlns:a="u"`, `a:x` is written as
  `x`; a default namespace is remembered for the elements after its own; and what is put back after an
  element pairs the wrong halves, so that in `<r xmlns:a="u" xmlns:b="v"><g xmlns:a="v"/><a:x/></r>`
  `a:x` becomes `b:x`.
* C61: with indentation, `<text>a <tspan>b</tspan></text>` is written as
  `<text>a<tspan>b</tspan></text>`: the space between the words is lost.
* C46: an id used only by a selector, or by a percent-encoded reference, is reported as unused.
* C47: in `<r xmlns:a="u" xmlns:b="u"><a:x/><b:y/></r>`, `a` is reported as unused. (Not reported
  though unused: the SVG namespace as default, and a declaration repeated inside.)
* C33: remove_xlink removes every unknown attribute (`data-x`, `xmlns:inkscape`) and leaves
  `xlink:href` next to `href`, `xlink:show="embed"` and legacy elements' references without
  declaration.
* C26: `<g transform="scale(2)"><path style="transform:translate(5px)"/></g>` loses the scale;
  `transform-origin` stays on the group while its transform moves.
* C40: deriving the state fails for good once an element was inserted (`Insert` is written but not
  read); a snapshot squeezes the white space in recorded arguments.
* C41: once the selection was empty, later selections are written to a detached element and never
  reach the document; an id that does not exist is kept and can name a node made later; the ids in
  a snapshot count white space that the snapshot leaves out.
* C48: permitted categories and attribute groups are always all of them; a text common to two
  elements is not reported, and a text that only the second has is.
* C62: `<g filter="blur(2px)" transform="scale(2)">` has its transform moved, only references count.
* C27: `<g opacity=".5"><path opacity=".5"/></g>` loses one opacity;
  `<g style="fill:red"><path fill="blue"/></g>` becomes red; with an animation of `fill` inside,
  `<g opacity=".5" fill="red">` copies the opacity to its child and keeps it;
  `<g class="a"><set class="b"/></g>` panics (second borrow of the child's attributes). The id of a group
  moves to its child and moving may stop right after, with the transform left on the group, so that a `use` of
  the id loses the transform; with a class on both, a child with an id takes the transform.
  `<g style="clip-path:url(#c)"><path transform="scale(2)"/></g>`: the path gets the style, and the clip path is scaled.
* C28: `<g style="fill:red">` with `fill="blue"` children becomes red; `fill="inherit"` on all
  children replaces the group's fill; two `clipPath`s with the same transform in a group lose it. A
  transform moved onto a group whose filter is in its `style` scales the filter. Attributes are also taken
  from children with an id, and a `use` of such a child then draws it without them.
* C38: a link to a script with children element, text, element keeps the first two, loses the third
  and everything that followed the link (`retain_children` leaves `next` links in place). Handlers
  stay that are missing in the table (`onpointerdown`), or that the element does not list
  (`onclick` on `clipPath`); so do `JavaScript:` urls in another case and XHTML scripts.
* C63 (no violation): a handler on an element that does not list it is not recognised as one, and
  `ElementId::info` is empty for elements of an aliased prefix (`svg:clipPath`).
* C52: `<rect width="0" height="5"/>` is not shown, but the path made of it has a stroke; a `polyline` of one
  point (markers, round caps) is removed; `points="3 4h5"` is read as path data; the guard of `ellipse` looks
  for `circle` in the stylesheet, and no guard looks inside `:is()` or `:not()`; an `ellipse` without `ry`
  becomes a line; and as `set_local_name` makes a new element (C05), `<rect><title/></rect>` loses its title.
* C39: mergeStyles takes the `media` attribute off an element also when it could not be read, so that rules
  that never applied apply always; moves `@import` behind other rules or into `@media`, where it is ignored; and
  skips styles in foreign objects, so that their rules come later than before.
* C53: removeViewBox takes `viewBox="0 0 10 10"` from a `symbol` with width and height 10 that a `use`
  shows at 20 by 20, from a `pattern` whose size is a part of a bounding box, and from an `svg` whose
  size is set by CSS; the content is then no longer scaled.  removeDimensions takes the size of an inner
  `svg`, which is then as large as the viewport around it, and takes a `viewBox` that cannot be read for
  one that is there.
* C49: `<g id="x"/>` and `<marker id="m"/>` are removed although `use` and `marker-end` refer to
  them; only `mask` and `pattern` are protected.
* C50 (no violation): scripts, `font` elements and metadata in `defs` are removed unless they carry
  an id or a class.
* C35: `ComputedStyles` keeps the specificity of declarations and never reads it: the later rule wins. A selector that does
  not match stays on the stack and is prefixed to the next one, so `.a, .b` is read as `.a, .a.b` (and in `@media` this
  carries over to the next rule, where `.a` and `*` give the invalid `.a*` and the job ends in an error). Of
  `style="fill:red;fill:blue"` the first is taken. A parent's presentation attribute is inherited in place of a rule
  that matches the parent. Rules in `@supports` and `@layer` are skipped, and values are static all the same.
  Style elements are collected breadth-first, not in document order.
* C65: removeUnknownsAndDefaults protects elements that have an id, but not those inside them: in
  `<g id="a"><path stroke-width="1"/></g><use href="#a" stroke-width="5"/>` the path loses its width and is drawn with the
  other one. Selectors that look at an attribute stop matching when it is removed. `kerning` (SVG 1.1) is not in the table
  of inherited attributes.
* C66, C67: `mask-type`, `white-space` and `text-overflow` are not known and are removed, as is `discard`; so are `tspan` and
  `textPath` in `a`, with their text. The default of `divisor` is 1 (SVG: the sum of the kernel). Percentages in the table of
  defaults are a hundred times too large (`Percentage(100.0)` is 10000%), so that `width="100%"` is never a default;
  `cx` and `cy` of radial gradients have 50px in place of 50%, `transform-origin` has 5000% (SVG: 0).
* C68: minifyStyles looks for the attribute `style` by name and then asks for it as a style, which one that cannot be read is not:
  `<rect style="foo"/>` panics in the default configuration. Usage is recorded for SVG elements only, so that a rule for XHTML in a
  `foreignObject` is removed. A style element that is emptied goes, and `style + rect` elsewhere no longer matches. `has_scripts`
  looks at `href` of links, not at `xlink:href`. (Not modelled: an error in minify_style.rs would leave the sheet empty, as the
  `?` comes before the rules are put back; classes set by `set` elements are not in the sets.)
* C69: mergePaths does not look at the parent: `<switch><path d="A"/><path d="B"/></switch>` becomes one path that draws both.
  Paths with equal `pathLength` are merged, which changes the scale of their dashes. Whether paths meet is decided on their
  outlines, so that wide strokes may overlap: translucent ones were painted twice, and a stroke that was covered by the next
  fill is now above it. (Not modelled: `path + path` in a stylesheet counts other neighbours afterwards.)
* C70: removeUselessStrokeAndFill (a default job that "should never visually change the document"): `<rect style="stroke:red" stroke-opacity="0"/>`
  loses `stroke-opacity` and shows a stroke; `style="fill:red" fill-opacity="0"` gets `fill="none"`, which the style overrides, and loses
  `fill-opacity`. Only `marker-end` is looked at: `marker-start` and `marker-mid` lose the `stroke-width` they are scaled by; and
  with `stroke-width="0"` the attribute is removed, so that markers that were scaled to nothing appear. With `remove_none`, a shape
  with `stroke="none"` is removed though it has a fill. A `stroke-width` that is animated from 0 is lost with its stroke.
* C71: applyTransforms turns the sweep flag of arcs if the signs of `a` and `d` differ rather than if the determinant is negative:
  with `transform="matrix(0 1 1 0 0 0)"` arcs bulge to the wrong side, as with `matrix(1 2 -2 -1 0 0)`.
* C72: the ellipse is right whenever it is computed, but an arc with radii 0.001 and 0.0005 (or larger ones under `scale(.001)`) gets a
  rotation of `acos(0/0)`, which is NaN, as the comparison with 1e-6 is absolute; so does an arc with `rx` 0.
* C73: applyTransforms (a default job that "should never visually change the document"): `<style>path{transform:scale(2)}</style>` with
  `<path transform="scale(2)" …/>` is scaled twice, as the rule stays; with a rule in `@media` likewise; with
  `path{transform:translate(50%)}` computing the style panics. A `stroke-width` in a stylesheet wins over the attribute that is written.
  `stroke="inherit"` leaves the width as it is, `stroke-width="inherit"` is taken for 1. Dashes of a group are not scaled, dashes of a
  path with `pathLength` are though they should not be. `vector-effect` in a stylesheet is not noticed. A gradient that is the `fill` of a
  group moves. `applyTransformsStroked: true` means that transforms are never applied to stroked paths. By reading only:
  `transform-origin`, and `animate` and `animateTransform` in the path, are not looked at.
* C74: inlineStyles (a default job that "should never visually change the document"): with `.a{fill:red} .b{fill:blue}`, `class="a b"` on
  one element and `class="b"` on another, the first turns red, as `.a` is moved to its style attribute and `.b` is not. With
  `.a{…} .a.b{…}` the class `a` is removed from the element that matches the latter; with `.a .b{…} .b{…}` the class `b`; with
  `:not(.b){…} .b{…}` an element starts to match the former. `[fill]` stops to match as the attribute is removed. Rules of
  `<style media="print">` are moved and hold everywhere. An id that is used only in `url(#g)` of a stylesheet is removed with `#g{…}`.
  `width` of a mask is removed if a rule sets the property `width`. `removeMatchedSelectors: false` has no effect. By reading only: a
  declaration that does not parse still removes the attribute, and a selector in a rule within another rule is not noted as dynamic.
* C75: convertEllipseToCircle (a default job): `<ellipse rx="100%" ry="100%"/>` changes in every viewport that is not a square, as
  percentages of `rx` refer to the width, of `ry` to the height, and of `r` to the diagonal. `<ellipse style="rx:5px;ry:3px"/>` has no
  radius attributes, becomes `<circle r="0">` and vanishes. Rules such as `circle{r:5px}` start to apply and `ellipse{…}` cease to. By
  reading only: `<animate attributeName="rx">` within the ellipse has no effect afterwards.
* C76: removeDeprecatedAttrs (a default job): `<text xml:lang="ja" lang="en">` loses `xml:lang`, which is the one that browsers use
  ("removing deprecated xml:lang is safe when the lang attribute exists", line 132), so fonts and `:lang()` change. `svg:lang`, with a
  prefix for SVG's namespace, counts as `lang`. An attribute that is named only in `:not([version])`, or by `[x|lang]` with
  `@namespace x url(http://www.w3.org/XML/1998/namespace)`, or (with removeAny) by `[baseProfile]`, of which the name is put into lower
  case, is removed, and the rule starts or ceases to match.
* C77: convertOneStopGradients (not a default job): a gradient whose stop has no `stop-color` (black), `inherit`, or one by a media query is
  removed (line 152) while references to it stay (line 160), so nothing is painted. `stop-opacity` is not looked at; `currentColor` is
  that of the stop and becomes that of the shape; `rect{fill:url(#g)}` in a style element keeps referring to a gradient that is removed; of
  three gradients in a chain the middle one is removed and the first dangles; a gradient with two stops loses the coordinates it takes
  from a gradient with one. A gradient whose template is missing paints nothing, but `fill="url(#g) red"` turns red. With nested svg elements
  `xlink_href_count` goes down twice for the same gradient (line 176): `attempt to subtract with overflow`, or `xmlns:xlink` is removed though
  `xlink:href` is in use, so that the output is not well-formed; the latter also if only `xlink:title` is in use.
* C78: `visit_float` (content_type.rs:495) looks into values that may be `inherit` only when it does not look into lists, so
  cleanupListOfValues never rounds `stroke-dasharray`. `viewBox="0 0 .0004 .0004"` becomes `0 0 0 0` with the default precision, which
  disables rendering. `defaultPx` is read by no code in either job: `px` is always dropped when a length is written.
* C79: removeNonInheritableGroupAttrs (a default job) takes the *type* `Inheritable<..>`, which says that the word `inherit` is allowed,
  for inheritance. All but two presentation attributes have it, so the job removes exactly `vector-effect` and `transform-origin`; the latter moves
  every group that has a transform: `<g transform="rotate(90)" transform-origin="50 50">` loses its origin. `stop-color`, `flood-color`, `overflow`
  and so on, which are of no use on a group, stay.
* C80: `ContentType::is_empty` (content_type.rs:194) says it is "equivalent to the attribute being omitted". It is not for `xmlns=""` (the element leaves the SVG
  namespace and is not drawn; without it, it is), `xml:lang=""`, `href=""` on `a` or beside `xlink:href`, `to=""` on `set`, and `disabled=""` and the like on
  HTML in foreign objects.
* C81: removeMetadata removes stylesheets and gradients within `metadata`; removeDesc removes a description if any one of its text
  nodes begins with `Created with`; the doctype is dropped by the reader, so `removeDoctype: false` does nothing.
* C82: `<text>Hello<tspan> </tspan>World</text>` becomes `HelloWorld`; a tspan with a no-break space goes as well; an empty text that a `switch` chooses is removed, whereupon its next child is drawn; `<text><tspan/></text>` leaves an empty text.
* C83: `intersects` says no for paths that touch, even along a line (`M0 5H10` and `M5 5H15`), so mergePaths merges overlapping strokes; it says yes for a path in the mouth of another.
* C84: a wide stroke along the edge, paths that are used by `use` at another place, paths in an inner `svg` with its own view box, paths with `style="transform:…"` and content beside the view box of a viewport with other proportions are removed though visible; a path `M0 0L5 5` that stays has a `Z` pushed, whereby its caps become joins.
* C85: `<style>*{fill:blue}</style><rect style="fill:red"/>` turns blue, also with `!important` by default; `style="font:15px serif"` becomes `font="15px serif"` (as in the snapshot), which is no presentation attribute, likewise `marker`; `<animate fill="freeze" style="fill:red"/>` loses `freeze`.
* C86: an entry with a hyphen in `order` (`stroke-width`) has no effect, since attributes are compared by what is before the first hyphen.
* C87: the comparison of `sort_child_elements` says that each of two text nodes or comments is less than the other; with up to twenty children they are reversed (again with every run), with more the standard library may panic. Comments lose the elements they are about.
* C88: `^part$` around `fill|stroke` is `^fill|stroke$`, which matches `fill-opacity`; `preserveCurrentColor` does not preserve `stop-color`, `flood-color`, `lighting-color` and `color`.
* C89: a path that has only d, fill and stroke inside a group or clipPath in defs is removed, and what refers to the group draws nothing. `hrefs.contains(&id.0)` compares `#a` with `a`, is never true, and the id of the first path moves to the new one, so that existing uses lose its transform (their own snapshot shows it). `reuse-N` may be the id of something else. `paths` is never cleared, so that with nested svg the paths are processed again and may all vanish. Children of paths (title, animate) are lost. `xmlns:xlink` is declared on defs only.
* C90: a dynamic linecap is not looked at (`RemoveNoopCommands` although dots may be drawn). `UniteSegments` is allowed for nonzero, documented as unsafe. Square caps are documented as safe for `CloseSegments`, the code asks for round. Markers and stroke inherited through a use are not seen. The option `unite_segments` has no effect in the job since `Path::optimize` does not look at it; the result of `query_has_script` is not used.
* C91: `is_straight` is true whenever the ends meet, so that `M0 0C10 10-10 10 0 0` vanishes under default options. It looks at the distance of the controls from the line but not along it: `C30 0 30 0 10 0` loses 13 of 24 units. `is_zero` measures from the end of the command before even if that was removed: a line of any length made of steps below the tolerance vanishes. `is_parallel` compares twice the area of a triangle with the tolerance: `M0 0L.03 0 .03 .03` becomes a diagonal, and so do chains of such. `CloseSegments` with round caps and joins draws a line that was not there.
* C92: `unicode=" "` of a glyph becomes empty; `onclick="a() //⏎b()"` loses `b()`; `split_whitespace` also takes U+00A0 and the like; `xmlns:b="u "` is trimmed, which renames the namespace.
* C93: `onblur`, `ontouch*`, `onpointer*` are not in the table of attributes and not seen; `a xlink:href="javascript:…"` and `JavaScript:` are not seen by `has_scripts`; `use xlink:href="#a"` is refused as external while `use href="http://…"` passes. `fail_fast` is never looked at and `preclean_checks` is off by default. Attributes without prefix get the default namespace (XML gives them none).
* C94: `removeRasterImages` only looks at xlink:href and at substrings in one case, anywhere in the link. `removeElementsByAttr` on the id of the root leaves an empty document; `class="'a b"` is read as one class.
* C95: `data-*` attributes and `l:href` with the namespace of XLink are dropped without a word; `class` and `className` both become `className`; `solid-color` on `rect` is dropped.
* C96: text with `{`, `}`, `<` or `>` gives a module that does not parse or that runs the text; `<text>Hello <tspan>world</tspan></text>` is shown as `Helloworld` since text is trimmed; a processing instruction in an element becomes text; `svg:g` is dropped with its content; `!important` is lost.
* C97: `dimensions: false` also drops the width of `svgProps`; `titleProp` removes `aria-labelledby` of the document if no id is given; a `title` of a group is taken for that of the document; `replaceAttrValues` is a `HashMap` walked in random order; in react-native `<g><title/></g>` becomes `<G>` without closing tag.
* C98: `typescript` with the default `expandProps` refers to `<Name>Props`, which is only declared with `titleProp` or `descProp`; `Ref` is never imported; a component called `Memo`, `ForwardRef` or (with types) `SVG` is declared twice; `source_namespace` with `namespace` gives `import * as P, { forwardRef }`; for Preact `memo` and `forwardRef` come from `preact` though config.rs:363-366 says `source`; `<desc><svg/></desc>` with `descProp` reaches `unreachable!()`.
* C99: `is_html_element_in_html_document` is always true (selectors.rs:379-381), so that the crate selectors asks for names in lower case: `linearGradient` or `[viewBox]` never match, in `removeAttributesBySelector` as well as in style sheets; `[*|href]` only looks for attributes without prefix (421-424); `[class="a  b"]` is compared with the printed value; `:empty` is false with a comment; the pseudo-classes of 75-90 cannot be read (313-316).
* C100: `opaque` (selectors.rs:347-349) is the address of the temporary `SelectElement`, not of the node: caches of `:nth-child` and the comparison with `:scope` (303) depend on the stack.
* C101: `select` is lazy (remove_attributes_by_selector.rs): with `svg:not([id]) > rect`-like selectors, removals decide about later matches; `attr.name()` un-aliases names.
* C102: addClassesToSVGElement does nothing when the svg has no class attribute (add_classes_to_s_v_g_element.rs:97-99), with className it replaces the classes (113-128); `get_attribute_mut!` reaches `unreachable!()` for an aliased class (attribute.rs:99-111); addAttributesToSVGElement panics for `a:b:c` (element.rs:174-178).
* C103: cleanup_enable_background.rs compares only width and height of the area, and removes any declaration in a style attribute when it matches `new` without an area.
* C104: a `url(#a) red` attribute keeps `red` (content_type.rs:416-433).
* C105: `continue` on the prefix xml keeps counting the index used with `Vec::insert` (markup5ever.rs:206-211) which then panics; the map of namespaces is not scoped; the invented `xmlns` attribute itself counts as a name in the namespace of SVG; `reparent_children` leaves `last_child` empty.
* C106: naive_range (utils.rs:24) indexes one past the end for a range at the last byte.
* C107: no_default_attributes looks at the attribute alone; ElementId::info is empty for an element with another prefix, so no_deprecated says nothing; no_invalid_attributes matches on Attr::Unparsed without taking off the alias. The help for xlink:show="replace" suggests `target="_new"` (error.rs:137-139) where `_self` is meant.
* C108: the identifier of a begin value is cut at its last hyphen (animation.rs:104-109), so `my-id.begin` is an error; it is then kept as unparsed text, and cleanupIds and prefixIds miss the reference (content_type.rs:344-349). `a.begin-0:05` loses its sign; `repeat(n)` wraps at 32 bits; `repeat(1)-` is accepted; a begin value such as `é.begin` panics.
* C109: role="graphics-symbol", alignment-baseline="text-top" and dominant-baseline="text-bottom" are not in the tables (aria.rs:171-339, presentation.rs:33-65, 296-326), so that they count as invalid values in the linter. In::parse expects the end before parse_string skips white space (filter_effect.rs:185). Target::parse commits to a keyword before looking at what follows (uncategorised.rs:976-989), so `_top level` is an error and not a name.
* C110: `-o` without a value never writes in place (walk.rs:21-25 against 130, 137): `output.first()` is None, as without the flag. `oxvg optimise a.svg -o dir` fails as the path of the file itself strips to nothing and the destination is the directory (walk.rs:140-144). Of `oxvg optimise a.svg b.svg -o out.svg` the last wins. `oxvg optimise . -o out` in a script or CI reads standard input (walk.rs:103-111).
* C111: optimise prints errors and returns Ok (commands/optimise.rs:105-111); action stores the flag and never loads it (commands/action.rs:134, 168); lint check does not use `level` nor the problems found (commands/lint.rs:19, 31-39). Files that are not UTF-8 and paths that do not exist are skipped without a message (walk.rs:159, 172).
* C112: the examples in the help of `oxvg action` use `-delete`, which is no action (commands/action.rs:33, 51, 66 against 318-364). `--derive-state` is declared and never read (commands/action.rs:86-89). get_part takes any word, so an action name can be taken as an argument (commands/action.rs:293-298).
* C113: path_to_component_name drops leading digits after having capitalised them (jsx.rs:572-585), so `1icon.svg` gives `icon`, which JSX takes as an HTML element. `--no-index` is declared (jsx.rs:196) and never read. The index is opened for appending (jsx.rs:597-600) and never cleared. `output.or(path)` (jsx.rs:297) writes beside the input where the help promises standard output (walk.rs:24). The file is created before the transformation (jsx.rs:316), which may fail. `config_file` and `extends` of `oxvg jsx` (jsx.rs:136-144) are never read.
* C114: `Curve::t_at` (curve.rs:491-552) tries five seeds and eight Newton steps; for about one in three hundred random curves and points of them all five fail (witness: start 0,0, curve -1,1 2,-3 0,3 at 3/8), and boolean operations call `unwrap` on the result (i_overlay_integration.rs:267-268). `CurveCoordsIter::new_with_tolerance` (coords_iter.rs:37-43) begins with the distance of the end from the start, so a curve that ends where it starts gets one step and vanishes from boolean operations. `len` (coords_iter.rs:133-139) is one less than the number of items, against the contract of ExactSizeIterator. `ArcCoordsIter` asks for `point_at_angle(t_step)` (69-72) where `point_at(t_step)` is meant.
* C115: `segment_from_ring` calls `unwrap` on `t_at` (i_overlay_integration.rs:267-268), but the vertices of a ring lie on chords between at most 128 samples of a curve, so for curves some hundred units long a crossing is further than 1e-3 from the curve and the call panics (witness: a parabola of 128 units, crossing at the middle of its first chord). The edge that closes a ring is never looked up (`tuple_windows`, 231), so a curve there comes back as the line of closepath. A path that is one closed curve is flattened to two equal points (78-123 with coords_iter.rs:37-43).
* C117: `Backend::lint` publishes only when there are problems (lsp.rs:87-96), so a text put right, a text that no longer parses and a closed document keep their diagnostics; columns are bytes (lsp.rs:36-41, node.rs:70) where the protocol counts UTF-16; `diagnostic_provider` (126-136) is told without a method for it.
* C118: `compare` takes `tuple_windows` of all bytes (visual_regression.rs:145-147) where chunks of four are meant, so that up to seven windows count for a pixel and as few as one, and divides by the number of bytes (151). Errors of `check` are dropped (62).
* C119: `render` writes the bytes of `read_pixels` (render.rs:52-58, 97-110) to a file named .png without encoding them.
* C120: `is_arc_to_line` (arc.rs:987-989) takes radii under 1e-5 for zero, so that `A1e-6 1e-6 0 0 1 1 0` from -1,0 becomes a line instead of half a circle.
* C121: `to_arc_to` (arc.rs:625-635) makes the radii simple if they differ from the smallest ones that reach by less than the tolerance; the centre of such an arc may be off by about the square root of that. `M.2-99.9998A100 100 0 0 1 .2 99.9998` is written with radii that draw half a circle, 0.1996 further out, at a tolerance of 0.001.
* C121: `euclid_gcd_lossy` (math.rs:33-66) gives zero if both radii round to zero at the precision; `radii / denom` is then infinite and `while (simple - limit).quadrant() == Quadrant::A` (arc.rs:631-633) never ends: half a circle of radius 0.4 with `precision: 0`.
* C122: `get_selections` keeps an element as often as it was selected, so `select_more` of a selected element makes `class` toggle back and `transform` apply twice.
* C122: `transform` (transform.rs:127) asks whether the element takes `style`, which every element does, instead of `transform`; a `stop` or `dc:title` gets a transform.
* C122: a transform attribute that could not be read, as `rotate(1turn)`, is replaced by the new transform.
* C122: `attr` with a name such as `a:b:c` panics in `parse_attr_id` (element.rs:168-186).
* C122: `style` takes only `!important` in small letters without blanks inside as importance.
* C123: `insert` asks neither whether the parent may have such a child nor whether the prefix is declared.
* C123: a path that is selected twice is merged with itself and taken out of the document.
* C123: path operations keep the last path in the order of selection rather than the one in front.
* C123: a path operation on one path sets `fill-rule="evenodd"` and leaves the data of a nonzero path as they are.
* C123: path operations set the attribute `fill-rule`; a `fill-rule` in the style attribute still beats it.
* C124: `oxvg lint check --config` and `oxvg lint serve --config` are parsed and never looked at (lint.rs:13-16, 45-47); so are `oxvg jsx --config-file` and `--extends` (jsx.rs:148-151).
* C124: `Config::load` (config.rs:54-63) is run before the command is looked at (main.rs:13) and panics on a file it cannot parse, even for `oxvg format` or with `--config` given; without a home directory `choose_base_strategy` makes it panic as well.
* C124: `oxvg optimise --config` prints `Rules::default()`, all errors (optimise.rs:127), but linting uses `Rules::recommended()`; `--config --extends safe` prints a configuration without that preset.
* C125: `export default { $jsx }` keeps `$jsx`, as a shorthand property is not visited as an expression, though the documentation says that any valid identifier expression is replaced; so is `$props` as the parameter of a setter.
* C126: `saggita` (math.rs:23-24) returns at most the radius for an arc with the large flag, where it should return `2 * r - s`, and so hides any change: radius 100.0008 over a chord of 200 becomes 100 with tolerance 0.001, and the height drops from 100.4 to 100.
* C127: `is_straight` (arc.rs:698-707) divides by the length of the chord, but at least 1, so an arc whose ends almost coincide is straight whatever its radius: the usual way to draw a circle with a single arc, `A 100 100 0 1 1` to a point 1e-6 away from the start, becomes a line, and the circle is gone.
* C128: `is_connected` (arc.rs:510-582) does not look at directions. `M100 0 A100 100 0 0 1 0 100 A100 100 0 0 0 100 0`, a quarter circle there and back, becomes two half circles, as the joined arc ends where it starts (simplify.rs:330-332).
* C128: two arcs of 270 degrees each on the same circle become two halves of which the last ends where it starts (simplify.rs:333-339) and is no half any more; builds with debug assertions panic in `set_end_point_memo`.
* C130: the readers of the families in `font-variant` (presentation.rs:690-723, 820-865, 1165-1195) do not skip white space, so a family never reads a second word, and never fail, so a family is over once its turn came: `font-variant="common-ligatures discretionary-ligatures"` and `font-variant="small-caps common-ligatures"` are errors and are kept as text that is not understood.
* C129: `FontVariantLigatures::write_value`, `FontVariantNumeric::write_value` and `FontVariantEastAsian::write_value` (presentation.rs:725-744, 867-889, 1197-1213) write nothing between words: as soon as C130 is repaired in the reader, `lining-nums ordinal` would be written as `lining-numsordinal`.
* C131: `Clip::parse` (presentation.rs:180-199) reads the sides of the rectangle as plain numbers, so `clip="rect(auto,auto,auto,auto)"` and sides with units, which SVG 1.1 (14.3.1) allows, are errors and are kept as text that is not understood.
* C133: `Frequency` (core_attrs.rs:213-246) has `KHz` for the unit that SVG 1.1 and CSS call `kHz`, in reading and in writing. No attribute has this type yet.
* C134: `SVGTransform::try_from` (transform.rs:479-484) converts `scaleX(x)` of a style to `scale(x, 0)` instead of `scale(x, 1)`: whatever reads the computed transform as an attribute takes the element to be flat.
* C54: removeHiddenElems slices `&value[1..]` of the href of every `use`: an empty href, or one that starts with a character of
  several bytes, panics. A group with `opacity="0"` goes with all it holds, also a path that a `use` elsewhere refers to; the same
  for a gradient in a group with `display="none"`. Only `use` elements outside definitions protect what they refer to, so that
  a path used in a clip path alone may go. The walk skips what is below a hidden element that is used, and does not record its
  references: the gradient of a rectangle there goes. `display: none` counts also under a media query (the mode is not looked at).
