# Formal model of packit/specfile in Rocq (Coq 8.16.1)

## 1. What is modelled

The pure text-processing core of `/repo/specfile` (parsers, serialisers, list
editing operations, numbering, option tokenising, EVR handling) and the state
machines around it (context managers, parse cache, dummy sources) are modelled
function by function as total Gallina functions in `rocq/theories/`.

File naming: `PyStr.v`, `Regex.v` model Python's `str`/`re`; `M_<module>.v` models
`specfile/<module>.py` and holds definitions only; `Spec_*.v` holds independent
specifications; `P_*.v` holds proofs; `Properties_*.v` holds nothing but property theorems (each closed
by `exact`), their non-vacuity examples and `Print Assumptions`.

### Common modelling decisions

* **Strings** are lists of code points (`list N`). Character classes of Python's `str`/`re`
  are exact for ASCII; `isspace`/`\s` and the `splitlines` break set are exact for all of
  Unicode. `isalnum`, `isdecimal` (with its value), `isnumeric`, `lower` and title case of
  other non-ASCII characters come from an arbitrary record `Unicode`; theorems hold for
  every instance of it. The handful of non-ASCII characters that
  interact with ASCII under case folding (U+0130, U+0131, U+017F, U+212A) are treated exactly.
* **Regular expressions** used by the code are transcribed as syntax trees and run by
  an ordered list-of-successes matcher (`Regex.results`), which is proved equivalent to a
  declarative matching relation (`Regex.Match`). Priority (greedy/lazy/left alternative
  first) is the order of the list, as in Python's backtracking engine.
* **Exceptions** are values: `result A := Ok a | Err exn`.
* **RPM** (macro expansion, spec parsing, label comparison) is an oracle: a function
  parameter quantified universally in the theorems. Stateful expansion threads an
  abstract world `W`.
* **Objects and mutation**: a mutating method is a function from the old value to the new value.
  Aliasing matters only in `context_management.py`, where a heap is modelled explicitly.
* Integers are unbounded (`N`/`Z`), as in Python. List indices follow Python (negative indices,
  clamping of slices).

## 2. Plan per property

| id | model | proof plan |
|----|-------|------------|
| C01 | `M_sections` (parse, get_raw_data) | loop invariant: emitted sections + current buffer = lines read so far |
| C02 | same | invariant tying each data line to the last header |
| C03 | `M_macro_definitions` | regex decomposition lemma + loop invariant; refutations for trailing whitespace, `%dnl#%%` and unterminated bodies |
| C04 | `get_position` | induction on container; refutation by two equal definitions |
| C05 | `__delitem__`, `__delattr__` | list surgery lemma; refutations for negative index and attribute deletion |
| C06 | `get_raw_data` | `flat_map` over one changed element |
| C07 | line regex + serialiser | uniqueness of the match of a canonical line |
| C08 | `M_conditions` | induction on lines |
| C09 | same + tree semantics in `Spec_conditions` | induction on condition trees; refutation for `%elif` |
| C10 | same | the `Ok`/`Err` result characterised by stack depth; refutation for split conditions |
| C11 | `M_tags` | invariant; refutation by stale whitespace |
| C12 | same | one changed element |
| C13 | `__delitem__`, `__delattr__` | list surgery modulo blank lines; refutation for attribute deletion |
| C14 | `insert` | list surgery |
| C15 | tag regexes, permuted list of names | at most one name matches any line, hence order independence |
| C16 | `get_position` | induction; refutation by multi-line value |
| C17 | `find` | characterisation of first match |
| C18 | `M_changelog` | loop invariant |
| C19 | `add_changelog_entry` | composition with section serialiser |
| C20 | same | refutation by two sections and an e-mail; positive theorem without e-mail |
| C21 | `filter` | sorted-list lemma |
| C22 | `assemble`, regexes | declarative matching |
| C23 | `M_options.tokenize` | tokeniser state machine invariant |
| C24 | `__setattr__`/`__getattr__` | token list surgery; refutations for empty / dash values |
| C25 | `__delattr__` | refutation; positive theorem for options with a value |
| C26 | `M_value_parser` | well-founded recursion with fuel bound; concatenation invariant |
| C27 | same | refutation by `%a%%b%c`; positive theorem without `%%` |
| C28 | `M_sources` numbering | induction over tags; the numbering as an inductive relation in `Spec_sources` |
| C29 | `insert` | list-insert refinement, chain invariant for renumbering |
| C30 | `insert_numbered`, `add_patch` | list reasoning |
| C31 | deletion | induction over the places from the end |
| C32 | `M_sourcelist` | loop invariant |
| C33 | `Prep.parse`, `get_raw_section_data` (M_prep) | round trip over line classes (regex search lemma for the macro line), keeping of other lines, failures |
| C34 | `PrepMacros.__delitem__`, `__delattr__`, `remove_patch_macro` | line-exact deletion, first-match search |
| C35 | `M_evr` with label comparison oracle | algebra; refutation for hash |
| C36 | `from_string`/`__str__` | regex uniqueness |
| C37 | `_read_lines`, `__str__`, `save` (M_file, with the UTF-8 codec and surrogateescape) | codec round trip; `splitlines` characterisation |
| C38 | release splitting | regex uniqueness |
| C39 | `_bump_release_string` | regex case analysis |
| C40 | `M_context`: ContextManager/GeneratorContextManager as a machine with a heap, the class-level table of suspended generators and `with` programs; `M_views`: the views of a spec file on top | refinement of a specification of nested views, then laws of that specification |
| C41 | same | refutation for every file and edit; positive for different sections in C97 |
| C42 | `M_spec_parser` state machine | invariant over histories |
| C43 | dummy source files, environment | invariant over crash points |
| C44 | `construct_regex`, `update_value` (nested `update`) | evaluation relation; induction on fuel with a frame argument over the entities reached |
| C45 | `get_filename_from_location` | suffix lemma |
| C46 | `count_brackets` | induction on balanced text grammar |
| C47 | `split_conditional_macro_expansion` | from C26 |
| C48 | `Macros._parse` | loop invariant |
| C49 | `Macros.remove` | macro stack machine |
| C50 | `process_conditions` | refutation by chains with two `%elif` and `%elif`/`%else` |
| C51 | same | refutation by a block across sections |
| C52 | `Options.__delattr__` | refutation by a flag that is not the first token |
| C53 | `Options.__setattr__` | refutation by setting a set flag |
| C54 | `Positionals.insert` | refutation by insertion in front of the first token |
| C55 | `tokenize`, `__str__` | refutation by doubled backslashes |
| C56 | `Positionals` | refinement to a list of items (`Spec_options.cmdline`) |
| C57 | `Sections.__setattr__/__delattr__` | from C01 and first-match lemma |
| C58 | `Sections.find`, `__contains__` | first-match lemma |
| C59 | same | refutation by `%package -n Foo` |
| C60 | same | refutation by `%build ` |
| C61 | `Sections.parse` | refutation by two equal definitions |
| C62 | `Section.__str__` | refutation by `%package` and `%{?x:-n foo}` |
| C63 | `Sections.parse` | refutation by U+017F |
| C64 | `Tags.parse` | regex uniqueness, induction over lines against the relation `written` |
| C65 | `Comments.parse` | induction over lines |
| C66 | `Tags.parse` | refutation by trailing white space in a multi-line value |
| C67 | same | refutation by `%{?x:%{y  z}}` |
| C68 | same | refutation by `# %{}` |
| C69 | `Tags.__delattr__`, `pop`, `remove` | refutation by `%if` above the tag |
| C70 | `Tags.__delitem__` | refutation by index -1 |
| C71 | `Tags.insert` | refutation by every index before the first |
| C72 | `Tag.get_position` | refutation by a multi-line and by an equal tag |
| C73 | `Sources._get_tags` | refutation |
| C74 | `_get_items` | refutation by two lists |
| C75 | `insert` with a negative index | refutation |
| C76 | `insert` with unordered numbers | refutation |
| C77 | `add_patch` with a list section | refutation |
| C78 | `add_patch` with implicit numbering | refutation |
| C79 | `_get_tag_format` separator | refutation, re-parsed by `tags_parse` |
| C80 | `__delitem__` of a slice | refutation |
| C81 | `__getitem__` of a slice | refuted for every container |
| C82 | `Sourcelist.parse` | refutation |
| C83 | `__delitem__`, implicit numbers | refutation |
| C84 | `Prep.parse` | refutation |
| C85 | `remove_patch_macro` | refutation (for every section starting with a matching %patch) |
| C86 | `add_patch_macro`, option assignment | insertion theorem, nearest-number argument, refinement of options |
| C87 | `PatchMacro.number` | refinement against the command line specification |
| C88 | `has_autorelease`, `contains_autochangelog` | equivalence with an inductive reference relation; induction on nodes and lines |
| C89 | `ValueParser.flatten` | equivalence with an inductive relation |
| C90 | insert, insert_numbered, delete_item, set_location with the tag records and list entries | relational frame specification (tag_added, entry_added, named_after, aligned) proved by induction over the renumbering loop |
| C91 | initial_setup of Patches | counterexample: SourceLicense matches the Source pattern |
| C92 | `_read_lines` | refuted: IndexError; positive theorem for every other file |
| C93 | `save` | refuted: `write_text` truncates before encoding; characterisation of failing texts |
| C94 | `_read_lines`, `__str__` | refuted for every such file |
| C95 | `PrepMacros.__delitem__` | refuted: lines move, or IndexError |
| C96 | M_context, M_views | refutation for every program |
| C97 | M_context, M_views | commutation of edits of different sections |
| C98 | M_context, M_views | refutation for every pair of spellings |
| C99 | M_context, M_views composed with the section, tag, changelog, prep and macro definition models | round trips of all views, induction over programs |
| C100 | M_context, M_views | evaluation of the specification of nested views |
| C101 | M_macros | refutation: one round over any stack whose second definition is its own literal |
| C102 | M_macros | refutation: induction on the number of rounds |
| C103 | M_macros, abstract RPM with stacks of definitions | induction on the macros; invariants of the removal loop |
| C104 | M_macros | refutation: one step of the parsing loop |
| C105 | M_spec_parser | refutation: a copy with the identity of a dropped parser |
| C106 | M_spec_parser | refutation: any change between two parses with the same arguments |
| C107 | M_spec_parser | refutation: invariant over all later events |
| C108 | M_spec_parser | refutation: the memory of the parse before is kept |
| C109 | M_spec_parser | refutations for each of the three kinds of failure |
| C110 | M_spec_parser | invariants of the two loops |
| C111 | M_spec_parser | refutation for all sources that are given by a location with a directory |
| C112 | M_spec_parser | case analysis over both parses |
| C113 | M_spec_parser | refutation, composed with the model of reading files |
| C114 | M_spec_parser | refutations for macros that are not closed and for missing directories |
| C115 | M_spec_parser | case analysis |
| C116 | M_spec_parser | induction over the lines |
| C117 | M_spec_parser | refutations |
| C118 | `ValueParser.parse`, `str()` of nodes | inductive `canonical` form of node lists (Spec_value2.v); induction over it, with the loop invariant of `parse` |
| C119 | same | refuted for every macro whose body ends in a backslash (corollary of C118) |
| C120 | same | refuted for every text after `%**` (corollary of C118) |
| C121 | `get_included_files` | inductive `included` over lines; regex inversion; induction |
| C122 | `get_loaded_files`, `ValueParser` | from C118 (`canonical` nodes); `flatten` as a fold |
| C123 | `get_referenced_sources`, `finditer` | inductive `refs_in` over texts, total; induction |
| C124 | `SpecParser.parse` | case analysis of the modelled cache and `_do_parse` |
| C125 | `_do_parse` with RPM as an oracle | inversion of the whole parse, with `seen` describing the files RPM sees |
| C126 | changelog and `add_changelog_entry` | refutation |
| C127 | changelog and `add_changelog_entry` | refutation |
| C128 | changelog and `add_changelog_entry` | refutation |
| C129 | changelog and `add_changelog_entry` | refutation |
| C130 | changelog and `add_changelog_entry` | case analysis, inductive relation |
| C131 | changelog and `add_changelog_entry` | induction |
| C132 | changelog and `add_changelog_entry` | append/delete lemmas |
| C133 | changelog and `add_changelog_entry` | refutation |
| C134 | `construct_regex`, `update_value` | refuted: counterexamples (shared macro; tag by both names) |
| C135 | `construct_regex`, `update_value` | refuted: counterexample |
| C136 | `construct_regex`, `update_value` | refuted: counterexample |
| C137 | `construct_regex`, `update_value` | refuted: counterexample |
| C138 | `construct_regex`, `update_value` | refuted: counterexample |
| C139 | `construct_regex`, `update_value` | refuted: counterexample |
| C140 | `construct_regex` | induction on nodes, tokens and matches: relation `stands` |
| C141 | `update_value` (nested `update`) | induction on fuel; frame relation; independence of fuel |
| C142 | `update_value`, `construct_regex` | induction over all errors |
| C143 | `construct_regex`, `update_value` | completeness of the constructed pattern: forward construction of matches |
| C144 | `update_value` (`find_reference`) | case analysis of one level of the update |
| C145 | `tags`, `sections`, `lines` views | composition of the round trips of sections (C01) and tags (C11) through the write back |
| C146 | tag properties | lookup through the view |
| C147 | tag properties | list surgery at the index of the tag |
| C148 | tag properties | replacing one line does not move any boundary of definitions, sections, tags: simulation of each loop |
| C149 | `set_version_and_release` | two replacements in one view |
| C150 | `set_version_and_release` | refuted: general theorem and example |
| C151 | `release` | composition of get and set |
| C152 | `bump_release` | cases, frame |
| C153 | `bump_release` | refuted: macros that are commented out or in false branches are bumped instead |
| C154 | `update_tag`, `update_value` | invariant over the sequence of views (relation `changes`) |
| C155 | `update_tag` | every entity is found at its position and stays |
| C156 | `update_tag` | refuted: macros are written before tags are looked up; positions no longer fit |
| C157 | `update_tag` | refuted: positions of equal tags or definitions coincide |
| C158 | `update_version` | case analysis, exact replacement of the definition |
| C159 | `update_version` | refuted: a group that does not participate has the span (-1, -1) |
| C160 | `tags` view | refuted: only sections and conditions skip macro bodies |
| C161 | `update_tag` | refuted: positions of tags count each tag as one line |
| C162 | `update_tag`, `update_value` | soundness of the update of entities (C44) composed with steps that rewrite the file: each step keeps an invariant of the file and is read back exactly |
| C163 | `macro_definitions` view | relation between the lines before and after, induction over the parser |
| C164 | tag properties | as C163 |
| C165 | `M_macro_definitions` | refutations by white space before a continuation, `%dnl#%%` and an unterminated body |
| C166 | `get_position` | refutation by two equal definitions |
| C167 | `__delitem__`, `__delattr__` | refutations: IndexError or moved lines; lines above are lost |
| C168 | `filter` | refutation: TypeError |
| C169 | `assemble`, regexes | refutation by a day padded with a zero |
| C170 | `M_value_parser` | refutation by `%{}` |
| C171 | `M_value_parser` | refutation by `%a%%b%c` |
| C172 | `M_evr` | refutation by an empty version, which compares as "0" |
| C173 | `from_string`/`__str__` | refutation by a name with a dash |
| C174 | `Changelog.parse` | refutation for every changelog that has an entry: the entry below becomes the content of the new one |
| C175 | `view_sources`, `edit_sources`, `spec_add_patch` over sections, tags, list sections and macro definitions of the whole file | exact effect of an insertion on the tags, inserting a line into a file does not change which lines are headers, definitions and tags (P_specfile18-21) |
| C176 | as C175 | replacing a line by one with the same name (P_specfile22) |
| C177 | as C175 | refutation: a line "%endif" in a macro body attracts the new source |
| C178 | `view_sources` | round trips of sections, tags and list sections |
| C179 | `is_list` | refutation: the name is compared as it is written |
| C180 | `edit_sources`, `delete_item`, `remove_numbered` over the whole file | dropping lines outside definitions does not change which other lines are headers, definitions and tags (P_specfile24) |
| C181 | `spec_add_patch` | inserting comments line by line (P_specfile25) |
| C182 | as C180 | refutation: a commented-out definition above a source is one of its comments |
| C183 | as C181 | refutation: a comment that mentions "%global" |
| C184 | `M_sections.parse` and `sections_raw` over the whole file | inserting lines block by block keeps definitions and headers (P_specfile27), plain headers do not need the oracle (P_specfile28) |
| C185 | `add_changelog_entry` from lines to lines | C184 and uniqueness of the place where entries begin (P_specfile28) |
| C186 | as C185 | refutation: a line "%clean section" of an entry |
| C187 | `M_sections.parse` and `sections_raw` over the whole file | places of headers determine the blocks of a file (P_specfile30); removing and adding single lines keeps them (P_specfile30); sections from blocks (P_specfile31) |
| C188 | `observe` of programs with one edit (M_context, M_views) | C100 and C187 (P_specfile32) |
| C189 | as C188, with M_prep | C33, C34, C86 and C188 (P_specfile32) |
| C190 | as C187 | refutation: a file that ends in a macro definition with a backslash at the end |
| C191 | `M_options` | refutation: every text that starts with a dash, for every command line without the option |
| C192 | `M_options2` | filter extensionality; permutation of duplicate-free lists |
| C193 | `M_options2` | refutation: every known option is always a member |
| C194 | `M_options2` | refutation: names of several letters that are part of the option string without colons; proved for all other names |
| C195 | `M_options2` | induction on the positional arguments removed and on the values added |
| C196 | `M_options2` | refutation: no positional argument is left, for every command line |
| C197 | `M_options2` | induction on the number of tokens |
| C198 | `M_comments` | first match of the pattern for comments; list lemmas |
| C199 | `M_comments` | refutation: the number of comments never changes; IndexError for too few texts after a part was assigned |
| C200 | `M_comments` | refutation: the text is written as it is, without a hash, and the comments no longer belong to the tag |
| C201 | `M_comments` | refutation: the loop state after any number of rounds |
| C202 | `M_sections` | case analysis; refutation for options without known letters |
| C203 | `M_shared`: lists of identities and a store of objects | refinement of deletion by deletion through references; refutation: the original after the deletion |
| C204 | `M_inherited` | first equal item; refutation: equality of sections compares their lines only |
| C205 | `M_inherited` | refutation: the lines before and after, for any index |
| C206 | `M_inherited` | round trip (C03, C18); refutation: the lines that belong to no item are lost |
| C207 | `M_inherited`, `M_file` | decoding of a file with a line feed added; case analysis |
| C208 | `M_bytes`: opening, a block, saving | UTF-8 with surrogateescape is a homomorphism on text (C37); composition with C147, C151, C152 |
| C209 | `M_bytes` | refutation: composition of C150 and C93 with the saving on exit |
| C210 | `M_sources_seq`: the methods inherited from `MutableSequence` over `M_sources` | induction with the results of one insertion (C29) and one deletion (C31); refutation of "or none" |
| C211 | `M_sources_seq`: locations as texts or sources | refutation: invariant of the swapping loop, induction on the depth of calls |
| C212 | `M_history`: files by path, objects, one step per operation | induction over the history from its end |
| C213 | `M_history` | induction over the history |
| C214 | `M_history` | refutation for every pair of edits; proved for schedules in turns: each object reloads, edits and saves before the next one, by induction on the turns and reading back what was written |
| C215 | `M_history`: lists of lines as objects with identity | refutation for every continuation while the view is open; proved for reloads outside of views by an invariant |
| C216 | `M_expand` on top of the parsers of `M_spec_parser`; RPM is an oracle that may change the macros | the transparency of the cache (C42), then comparison of two real parses; refutation for every expression that changes macros |
| C217 | `M_formatter`: syntax trees and the formatter; Python's parser is an oracle | induction over the tree, with a grammar of tokens and their layout; a second induction shows that tokens determine the tree |
| C218 | `M_formatter` | induction over the tree for calls of names; refutation for other calls and for syntax errors at the end of a line |
| C219 | `M_formatter`: placeholders | refutation for every text that also occurs as a string before; proved if the placeholder occurs once |
| C220 | `M_capture`: open files, the descriptor, the buffer of `sys.stderr` | induction over the size of blocks; functional relational specification of what a block writes |
| C221 | `M_capture`: failures and interrupts between the steps | case analysis; refutation for interrupts between redirection and `try`, and for a `sys.stderr` that cannot be flushed |
| C222 | `M_deepcopy`: a heap of objects with attributes, the memo, and the three `__deepcopy__` | induction over fuel bounded by the number of objects not in the memo; the memo as a bisimulation |
| C223 | `M_deepcopy` | corollary of C222; refutation for collections of sources |
| C224 | `M_slice`: `range(n)[s]` as CPython computes it, the loops of the six `__delitem__` | arithmetic of bounds against a predicate on positions; induction over descending positions |
| C225 | `M_slice` | the positions of what an ascending loop deletes; with two or more, one of these is never picked |
| C226 | `M_slice` | induction over the positions |
| C227 | `M_url`: `urlsplit` as far as scheme and host, with oracles for what the standard library checks about hosts | inversion of the splitting at the first colon and the first delimiter |
| C228 | `M_url` | refutation: brackets that do not match; no exception for ASCII without brackets |
| C229 | `M_dump`: capture, UTF-8 and parsing together | composition of C220, the encoding of C37 and C48; uniqueness of lines |
| C230 | `M_dump` | refutation |
| C231 | `M_expand`: the properties on top of `M_spec_parser` | from C42 (the memory of the last parse is transparent); refutation when an identity is used again |
| C232 | `M_equality`: `Mapping.__eq__`, equality of macros and of lists of macros | dictionaries against the command line of C24; refutation for positional arguments |
| C233 | `M_equality`: `remove` with the equality of macros | induction over the list; refutation with two patches |
| C234 | `M_equality`: equality of sources | equality of tags and entries gives equal names and values; refutation for sources against patches |
| C235 | `M_add_entry` under `with_file` of `M_bytes` | the entry as inserted (C19, C20), the lines of a section with new contents, then the bytes of replaced lines (C208) |
| C236 | `M_specfile2` under `with_file` of `M_bytes` | the lines as changed (C175, C180, C181), then the bytes of replaced lines (C208) |
| C237 | `M_changelog_text`: the two `__str__` methods | the text has the lines of an evenly spaced changelog; those are read back (C17) |
| C238 | `M_changelog_text` | counterexample: an entry without contents |
| C239 | `M_macro_definitions.parse_tagged` | induction on the loop; the pattern matches exactly the lines described by `definition_line`; what a match says about the parts (C03); search for the white space at the end |
| C240 | `M_access` | lookup (C17) and case analysis |
| C241 | `M_conditions.resolve_expression` | refuted: the keyword is compared with "%ifnarch" and "%ifnos" only |
| C242 | `M_sections.is_script` | refuted (%prep; scriptlets with -p); proved what it does say, against an independent list of names, for every section that is read |
| C243 | `M_sources.count` | positions of a location as a duplicate-free list; semantics of insert and remove (C29, C31) |
| C244 | `M_section_objects`: sections and their options as objects with identities | invariant: changes go to one object; refuted for options |
| C245 | `M_section_objects.assign_lines`, `assign_section`, `delete_section` | refuted: the assignment of lines is that of the original (compared with the model of the assignment) |
| C246 | `M_section_objects.section_plus`, `section_times` | refuted: always an AttributeError |
| C247 | `M_section_objects.positionals_eq` | induction on the arguments |
| C248 | `M_section_objects.read_id`, `read_nid`: with the assignment the properties make | case analysis; refuted for an option that is added and deleted |
| C249 | `M_update.flippable_entities`, `M_update.evaluate`, `M_update.update` | both patterns are the empty one, which does not match what is requested |
| C250 | `M_tags.extend_value`, `M_tags.tags_loop`, `M_tags.tags_parse` | induction on the lines; the specification is an inductive relation that is shown to be functional |
| C251 | `M_options.text_type`, `opt_set`, `pos_insert`, `token_str` | case analysis; induction on the value |
| C252 | `M_spec_parser.unlink_all`, `M_spec_parser.with_dummy_sources` | induction on the files made |
| C253 | `M_specfile.sort_entities`, `M_update.find_last`, `M_update.concerns` | insertion sort is a sorted permutation; the last match in a sorted list has the greatest position |
| C254 | `M_sections.make_section`, `M_sections.section_options`, `M_constants.SECTION_OPTIONS` | case analysis against a literal table |
| C255 | `M_options.opt_set`, `M_options.opt_get`, `M_options.zdec`, `M_options.number_or_text` | the digits of a number are its numeral; a sign is not numeric, so a negative number is read as a text |
| C256 | `M_specfile.get_release`, `M_specfile.set_release`, `M_specfile.bump_release` | the getter of a missing tag gives None |

## 3. Trusted base

* Coq 8.16.1's kernel (and `coqc`), the standard library without axioms. `Print Assumptions`
  under each property theorem says *Closed under the global context*. `coqchk -o` and the axiom scan of
  `vcheck` additionally list fields of module types of the standard library that are loaded with
  `Lia`/ssreflect files (`Coq.ssr.ssrunder.Under_rel.{Over_rel, Under_rel_from_rel, over_rel, over_rel_done,
  Under_rel, Under_relE, under_rel_done}`); no theorem depends on them.
* The reading of the Python code recorded in the comments of `M_*.v`.
* Python's `re`, `str`, `list` semantics as transcribed in `PyStr.v`/`Regex.v`.
### Coverage, file by file

Line numbers refer to `/repo/specfile` at the pinned commit. `__repr__` (but for its formatting) and abstract methods are
nowhere modelled; `copy` is for tags and macro definitions (`M_shared`) and for sections (`M_section_objects`); `__deepcopy__` of all classes is in `M_deepcopy`, on a heap of objects. "Oracle" means an arbitrary function that the theorems quantify over.

| file | model | modelled | not modelled |
|---|---|---|---|
| `changelog.py` | `M_changelog`, `M_evr` (EVR), `M_add_entry` | entries (parsing, assembling, dates, EVR), `filter`, `parse`, `get_raw_data` | what the environment answers in `guess_packager` (a record that is arbitrary) |
| `conditions.py` | `M_conditions` | everything | evaluation of expressions (oracle: expansion) |
| `constants.py` | `M_constants`, `M_options`, `M_tags`, `M_sections` | the tables used by the code | - |
| `context_management.py` | `M_context`, `M_history`, `M_capture` | `ContextManager`, `GeneratorContextManager` on an explicit heap; `capture_stderr` on descriptors | - |
| `exceptions.py` | `PyStr` (`exn`), `M_spec_parser` | kinds; the message of `RPMException` | other messages |
| `formatter.py` | `M_formatter` | everything | Python's parser and `repr` of strings (oracles) |
| `macro_definitions.py` | `M_macro_definitions`, `M_conditions`, `M_slice` | everything | – |
| `macros.py` | `M_macros`, `M_dump` | `_parse`, `dump`, `remove`, `reinit`, `define`, `expand` over an oracle for librpm's macro table | - |
| `options.py` | `M_options`, `M_options2`, `M_equality`, `M_section_objects` (`Positionals.__eq__`) | tokenising, `Positionals`, `Options`, also as a mapping | identity of `Token` objects |
| `prep.py` | `M_prep` | parsing, serialising, adding and removing macros | - |
| `sections.py` | `M_sections`, `M_slice` (`get_slice`), `M_section_objects` (copies, slices, `+`, `*`) | everything | – |
| `sourcelist.py`, `sources.py` | `M_sourcelist`, `M_sources`, `M_sources_seq`, `M_slice`, `M_url` | numbering, `insert`, `insert_numbered`, deletion, `Patches`; `pop`, `clear`, `extend`, `index`, `reverse`; slices; `remote` | `expanded_*` (expansion of a modelled value) |
| `spec_parser.py` | `M_spec_parser` | dummy sources, cache key, retry with forced parsing, clean-up | RPM's `rpm.spec` (oracle) |
| `specfile.py` | `M_context`, `M_views`, `M_file`, `M_bytes`, `M_add_entry`, `M_update`, `M_specfile`, `M_specfile2`, `M_history`, `M_expand` | views, histories of several objects and files, `expand`, `get_active_macros`, saving and reloading, changelog entries, tags, release, `update_value`, `update_tag`, `update_version`, `bump_release`, `sources`, `patches`, `add_patch` | `__init__` argument checks, `rpm_spec` |
| `tags.py` | `M_tags`, `M_comments` | comments (also as a list), tags, parsing, lookup, insertion, deletion | - |
| `utils.py` | `M_value`, `M_evr`, `M_options`, `M_inherited`, `M_shared`, `PyStr` | everything else | `UserList`: `index`, `remove`, `pop`, `+`, equality in `M_inherited`; other methods are taken as those of lists |
| `value_parser.py` | `M_value`, `M_update` | everything | `re.escape`/`re.compile` of the generated pattern is replaced by building the syntax tree |

* Not modelled at all: type stubs, pickling, limits of recursion, threads,
  the operating system beyond the explicit state machines, RPM itself.

## 4. Reading seeded/LOG.jsonl

Each record is one edit of the model. `first_failing_lemmas` is what a build of
the chosen theorem files stopped at. A build stops at the first failure in a
file, so `theorems_failed` is computed: the property theorems whose proofs use,
directly or not, one of those lemmas. A record with no failing lemma survived
the theorem files that were rebuilt, which are not always all of them. A `note`
gives the exceptions: equivalent programs, invalid attempts, records restored
after being dropped from an earlier log, and one survivor without a tightening.
