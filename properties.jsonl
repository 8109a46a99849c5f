{"id": "C01", "title": "Untouched sections survive a parse/serialise cycle", "statement": "Parsing the lines of a spec file into sections and serialising the result with get_raw_data() (or str()) yields the same lines, in the same order, as long as every section header's option string is one that Options writes back as it was read and no header after the preamble has the identifier `package`.", "quantifier": "all line lists (no line-break characters inside a line), all macro expansion behaviours, all macro definition lists", "why_tests_cant": "the set of spec files is infinite and the parser is driven by regular expressions, a macro expander and options tokenisation; tests only sample a few files", "anchors": ["specfile/sections.py:Sections.parse", "specfile/sections.py:Sections.get_raw_data", "specfile/sections.py:Section.__str__", "specfile/sections.py:Section.get_raw_data"]}
{"id": "C02", "title": "Section boundaries never move content between sections", "statement": "Whatever the expander does, parsing a spec into sections keeps every non-header line in the section opened by the closest preceding header, in order, and a line opens a section if and only if it is a section header outside every macro definition body (for files whose macro definitions are pairwise different).", "quantifier": "all line lists, all expansion behaviours, all macro definitions", "why_tests_cant": "requires reasoning about every interleaving of headers, macro bodies and trailing expansions", "anchors": ["specfile/sections.py:Sections.parse"]}
{"id": "C03", "title": "Macro definitions survive a parse/serialise cycle", "statement": "Parsing lines into macro definitions and serialising them yields the same lines, provided no definition that spans several lines through an open bracket has trailing whitespace on its first line, no line is a `%dnl` line that also contains `#` and an escaped `%%global`/`%%define`, and the text does not end inside an unterminated definition.", "quantifier": "all line lists, with or without conditions", "why_tests_cant": "the regular expression, the continuation rules and the comment-out styles interact over unboundedly many lines", "anchors": ["specfile/macro_definitions.py:MacroDefinitions._parse", "specfile/macro_definitions.py:MacroDefinitions.get_raw_data", "specfile/macro_definitions.py:MacroDefinition.get_raw_data"]}
{"id": "C04", "title": "A macro definition's reported position is its line number", "statement": "MacroDefinition.get_position(container) is the zero-based index, in container.get_raw_data(), of the first line of that definition, provided no earlier definition in the container is equal to it.", "quantifier": "all containers and all definitions in them", "why_tests_cant": "depends on equality of arbitrary other definitions and on the number of lines of everything before it", "anchors": ["specfile/macro_definitions.py:MacroDefinition.get_position"]}
{"id": "C05", "title": "Removing a macro definition removes only its own lines", "statement": "After `del macro_definitions[i]` with a non-negative index, or with a slice, the serialised lines are the previous ones without the lines of the deleted definitions; nothing else is lost, duplicated or moved.", "quantifier": "all containers, all valid non-negative indices and all ascending slices", "why_tests_cant": "requires every container and every index", "anchors": ["specfile/macro_definitions.py:MacroDefinitions.__delitem__", "specfile/macro_definitions.py:MacroDefinitions.__delattr__"]}
{"id": "C06", "title": "Changing a macro definition is a minimal diff", "statement": "Assigning a new body to definition i changes only the lines of definition i; every other serialised line stays the same.", "quantifier": "all containers, indices and new bodies", "why_tests_cant": "universally quantified over containers and bodies", "anchors": ["specfile/macro_definitions.py:MacroDefinition.get_raw_data", "specfile/macro_definitions.py:MacroDefinitions.get_raw_data"]}
{"id": "C07", "title": "Commented-out macro definitions stay recognisable", "statement": "For a single-line definition, serialising it commented out and parsing the text again yields a definition with the same name and body that is reported as commented out; serialising it uncommented and parsing again reports it as active; toggling twice restores the text.", "quantifier": "all single-line definitions with valid names and bodies, both comment-out styles", "why_tests_cant": "quantifies over all names and bodies accepted by the grammar", "anchors": ["specfile/macro_definitions.py:MacroDefinition.get_raw_data", "specfile/macro_definitions.py:MacroDefinitions._parse"]}
{"id": "C08", "title": "Condition processing never loses, duplicates or reorders lines", "statement": "process_conditions() returns exactly the given lines, each exactly once and in order, paired with a validity flag, whenever it returns.", "quantifier": "all line lists, all macro definitions, all expansion outcomes", "why_tests_cant": "unbounded nesting and continuation lines", "anchors": ["specfile/conditions.py:process_conditions"]}
{"id": "C09", "title": "Validity flags follow %if/%else/%endif semantics", "statement": "In text with properly nested blocks of the forms %if…%endif, %if…%else…%endif and %if…%elif…%endif a line is reported valid exactly when every enclosing branch is taken, where a branch is taken when its own condition holds and the branch before it is not taken.", "quantifier": "all properly nested condition trees of any depth and width, all truth assignments of the conditions", "why_tests_cant": "nesting depth and number of branches are unbounded", "anchors": ["specfile/conditions.py:process_conditions"]}
{"id": "C10", "title": "Condition processing fails only on unbalanced text", "statement": "process_conditions() fails with IndexError exactly when some %else, %elif or %endif has no open %if, and every other failure is a failure of macro expansion.", "quantifier": "all line lists, all macro expansions", "why_tests_cant": "which inputs raise is a statement about all inputs", "anchors": ["specfile/conditions.py:process_conditions"]}
{"id": "C11", "title": "Tags survive a parse/serialise cycle", "statement": "Parsing a section into tags and serialising the tags gives back the section's lines, provided that no value spanning several lines has trailing white space on one of its lines and that every line which as a whole is one conditional macro expansion is written back unchanged by the value parser (see C66, C67 for what happens otherwise).", "quantifier": "all sections (line lists without line breaks inside a line), all macro expansion behaviours", "why_tests_cant": "regular expressions, comments, conditional macro wrappers and multi-line values interact over unbounded input", "anchors": ["specfile/tags.py:Tags.parse", "specfile/tags.py:Tags.get_raw_section_data", "specfile/tags.py:Comments.parse"]}
{"id": "C12", "title": "Setting a tag value is a minimal diff", "statement": "Assigning a value to a tag changes only the line(s) of that tag; comments, blank lines, conditions and other tags keep their text and order.", "quantifier": "all tag lists, all indices, all values", "why_tests_cant": "universally quantified over sections and values", "anchors": ["specfile/tags.py:Tags.get_raw_section_data", "specfile/tags.py:Tag"]}
{"id": "C13", "title": "Deleting a tag keeps everything that does not belong to it", "statement": "Deleting a tag by non-negative index or a slice of tags removes the tags' own lines and comments and keeps every other non-empty line (in particular %if/%endif) exactly once and in order; empty lines at the seam are merged into one.", "quantifier": "all tag lists, all indices and slices", "why_tests_cant": "the effect depends on the neighbouring entities, unbounded in number", "anchors": ["specfile/tags.py:Tags.__delitem__", "specfile/tags.py:Tags.__delattr__", "specfile/tags.py:Tags.remove"]}
{"id": "C14", "title": "Inserting a tag inserts exactly its lines", "statement": "Inserting a tag at any index not before the first tag adds the tag's lines in one place (after the first %endif between the neighbours, if there is one) and keeps every other line in its order; append adds them after the last tag.", "quantifier": "all tag lists, positions and new tags", "why_tests_cant": "the effect depends on preceding lines and conditions", "anchors": ["specfile/tags.py:Tags.insert"]}
{"id": "C15", "title": "Tag parsing does not depend on hash seed", "statement": "The result of parsing a section into tags is the same for every iteration order of the set of known tag names.", "quantifier": "all lines, all permutations of the set of tag names", "why_tests_cant": "set iteration order varies between interpreter runs; there are 60!-odd orders", "anchors": ["specfile/tags.py:get_tag_name_regex", "specfile/tags.py:Tags.parse", "specfile/constants.py:TAG_NAMES"]}
{"id": "C16", "title": "A tag's reported position is its line number", "statement": "Tag.get_position(container) is the zero-based index, in the serialised section, of the tag's first line, if no equal tag and no tag spanning several lines precedes it.", "quantifier": "all containers and tags", "why_tests_cant": "depends on everything before the tag", "anchors": ["specfile/tags.py:Tag.get_position"]}
{"id": "C17", "title": "Tag and macro lookups prefer valid entries", "statement": "find(name) returns the first valid entry of that name (case-insensitively for tags) if there is one, otherwise the first entry of that name, and raises/returns nothing exactly when there is none.", "quantifier": "all containers, names and positions", "why_tests_cant": "quantifies over all containers", "anchors": ["specfile/tags.py:Tags.find", "specfile/macro_definitions.py:MacroDefinitions.find"]}
{"id": "C18", "title": "Changelog survives a parse/serialise cycle", "statement": "Parsing any %changelog section and serialising it yields exactly the same lines.", "quantifier": "all line lists", "why_tests_cant": "universal over malformed as well as well-formed changelogs", "anchors": ["specfile/changelog.py:Changelog.parse", "specfile/changelog.py:Changelog.get_raw_section_data"]}
{"id": "C19", "title": "Adding a changelog entry is a pure insertion at the top", "statement": "add_changelog_entry() changes nothing but the contents of %changelog sections that are not automatic, and each of these only gets the new entry's header and lines (and one blank line if entries follow) in front of its first entry; the header has the date, padded as in that changelog, the author and the EVR. All lines of the spec file are kept in order, also when it fails; if there is no such section, nothing happens.", "quantifier": "all spec files, entry contents, authors, e-mails, dates, EVRs and results of expansion", "why_tests_cant": "universal over existing contents and histories of additions", "anchors": ["specfile/specfile.py:Specfile.add_changelog_entry", "specfile/specfile.py:Specfile.contains_autochangelog"]}
{"id": "C20", "title": "Every changelog section receives the same new entry", "statement": "When a spec has several %changelog sections that are not automatic, add_changelog_entry() adds an entry with the same content, date, author and EVR to each, if no e-mail is passed and the EVR, once expanded, expands to itself; only the padding of the day depends on the section. (C126-C128 are about the other cases.)", "quantifier": "all numbers of changelog sections, all authors, e-mails and EVRs", "why_tests_cant": "needs reasoning over an unbounded loop with carried state", "anchors": ["specfile/specfile.py:Specfile.add_changelog_entry"]}
{"id": "C21", "title": "Changelog filtering selects exactly the requested range", "statement": "On a changelog whose entries all have an EVR in descending order, filter(since, until) returns exactly the entries with since <= evr <= until, in the original order.", "quantifier": "all changelogs, all bounds, all total preorders on EVRs", "why_tests_cant": "universal over lengths and comparison outcomes", "anchors": ["specfile/changelog.py:Changelog.filter"]}
{"id": "C22", "title": "Assembled changelog entries parse back", "statement": "ChangelogEntry.assemble(timestamp, author, content, evr, padding, extended) produces a header whose evr and day padding read back as given, and whose extended_timestamp reads back as given unless the day is padded with a zero (and, for a date without time, unless the author contains a colon or the EVR more than one).", "quantifier": "all dates, authors and EVR strings without blanks", "why_tests_cant": "universal over authors and EVR strings, including ones with dashes and brackets", "anchors": ["specfile/changelog.py:ChangelogEntry.assemble", "specfile/changelog.py:ChangelogEntry.evr", "specfile/changelog.py:ChangelogEntry.extended_timestamp"]}
{"id": "C23", "title": "Option strings survive tokenisation", "statement": "For canonical option strings (quotes not empty, backslashes only where needed, macro references outside quotes free of blanks and quotes) Options.tokenize() succeeds and str() gives back the same string. Any sensible sequence of tokens without macros is read back from its text. Tokenising fails only with OptionsException, or with the value parser's error on unterminated macros.", "quantifier": "all option strings, including quotes, escapes and nested macros", "why_tests_cant": "universal over strings", "anchors": ["specfile/options.py:Options.tokenize", "specfile/options.py:Token.__str__"]}
{"id": "C24", "title": "Reading back an option that was just set", "statement": "On an option string in which every option that takes an argument has one, reading options and positional arguments gives what the command line says (last occurrence wins). After setting a known option to an int >= 0, to a text that is not empty, not numeric and does not start with '-', or setting an unset flag, reading it gives that value; all other options and all positional arguments are unchanged.", "quantifier": "all option strings, all option definitions, all values", "why_tests_cant": "quantifies over token sequences", "anchors": ["specfile/options.py:Options.__setattr__", "specfile/options.py:Options.__getattr__"]}
{"id": "C25", "title": "Deleting an option with an argument removes that option only", "statement": "After `del options.x` of an option that has an argument, exactly the tokens of its last occurrence and at most one neighbouring white space token are gone; all other tokens keep text and order, other options and positional arguments read the same.", "quantifier": "all option strings", "why_tests_cant": "quantifies over token sequences", "anchors": ["specfile/options.py:Options.__delattr__"]}
{"id": "C26", "title": "Value parsing is lossless", "statement": "Concatenating the string forms of the nodes returned by ValueParser.parse(value) gives value back, up to whitespace inside %{name args} substitutions; parsing terminates with a node list, an 'unterminated macro' error, or, only if the value contains a macro reference without a name, ValueError.", "quantifier": "all strings", "why_tests_cant": "universal over strings with unbounded nesting", "anchors": ["specfile/value_parser.py:ValueParser.parse", "specfile/value_parser.py:Node"]}
{"id": "C27", "title": "Every macro reference is found", "statement": "In a value without %%, every %name reference that occurs outside of other constructs is reported as a macro substitution node, and no literal contains a percent sign.", "quantifier": "all strings without %%", "why_tests_cant": "universal over strings", "anchors": ["specfile/value_parser.py:ValueParser.parse"]}
{"id": "C28", "title": "Numbers of sources", "statement": "Enumerating sources gives every tag its written number, or the number of the source above plus one if it has none, and numbers the entries of source list sections after the last tag. The numbers strictly increase, hence are distinct, if all tags have increasing written numbers or no tag has one, and at most one list section has entries.", "quantifier": "all tag sections that can be read from a spec file and any number of source list sections", "why_tests_cant": "universal over lists of tags and sections", "anchors": ["specfile/sources.py:Sources._get_tags", "specfile/sources.py:Sources._get_items"]}
{"id": "C29", "title": "Inserting a source follows list semantics", "statement": "sources.insert(i, location) makes the list of locations equal to Python's list.insert(i, location) on the previous list (i not negative), keeps strictly increasing numbers strictly increasing and leaves all other tags; a duplicate location is refused if duplicates are not allowed. insert_numbered(number, location) returns the position of the new source, and the source has that number if all tags are numbered in increasing order.", "quantifier": "all source containers, indices and locations", "why_tests_cant": "renumbering cascades over an unbounded number of tags", "anchors": ["specfile/sources.py:Sources.insert", "specfile/sources.py:Sources._deduplicate_tag_names"]}
{"id": "C30", "title": "Appending a patch keeps existing patches", "statement": "add_patch() leaves all existing patch numbers and locations untouched, and the new patch has the requested number, or max+1 (at least the initial number) when none is given, provided patches are numbered and not in a %patchlist section; a number not above all others is refused.", "quantifier": "all patch containers, all initial numbers", "why_tests_cant": "universal over containers", "anchors": ["specfile/specfile.py:Specfile.add_patch", "specfile/sources.py:Sources.insert_numbered", "specfile/sources.py:Patches"]}
{"id": "C31", "title": "Removing a source removes that source only", "statement": "sources.remove_numbered(n), remove(location), del sources[i] and del sources[a:b:c] with c > 0 remove exactly those sources; the locations of the others, the written numbers and all other tags stay. Assigning a location changes one location and no number.", "quantifier": "all containers and numbers", "why_tests_cant": "universal over containers", "anchors": ["specfile/sources.py:Sources.__delitem__", "specfile/sources.py:Sources.remove_numbered", "specfile/sourcelist.py:Sourcelist"]}
{"id": "C32", "title": "Source lists survive a parse/serialise cycle", "statement": "Parsing a %sourcelist/%patchlist section and serialising it yields the same lines; the sources are the lines that are neither empty nor comments, in order.", "quantifier": "all line lists", "why_tests_cant": "universal over line lists", "anchors": ["specfile/sourcelist.py:Sourcelist.parse", "specfile/sourcelist.py:Sourcelist.get_raw_section_data"]}
{"id": "C33", "title": "%prep survives a parse/serialise cycle", "statement": "Reading a %prep section into macros and writing it yields the same lines, for all sections whose lines are plain commands, macro lines with canonical options, or such macro lines in a conditional expansion; in any section, lines that hold no macro and are not wrapped in a conditional expansion stay where they are; reading fails only with OptionsException, ValueError or an unterminated macro.", "quantifier": "all line lists", "why_tests_cant": "universal over line lists with conditional macro wrappers and continuation lines", "anchors": ["specfile/prep.py:Prep.parse", "specfile/prep.py:Prep.get_raw_section_data"]}
{"id": "C34", "title": "Patch macros can be removed", "statement": "remove_patch_macro(n) removes the line of the first %patch with that number, unless it is the first macro of the section, and keeps every other line; without such a macro nothing changes; deleting a macro by name removes its line only.", "quantifier": "all %prep sections and numbers", "why_tests_cant": "universal over sections", "anchors": ["specfile/prep.py:Prep.remove_patch_macro", "specfile/prep.py:PrepMacros.__delitem__", "specfile/prep.py:PatchMacro.number"]}
{"id": "C35", "title": "EVR comparison is a consistent total order", "statement": "Given that RPM's label comparison is a total preorder, EVR/NEVR/NEVRA comparison operators agree with each other, are transitive and total on comparable values, and values with the same components are equal and have equal hashes.", "quantifier": "all EVR, NEVR and NEVRA values", "why_tests_cant": "algebraic laws over all triples", "anchors": ["specfile/utils.py:EVR", "specfile/utils.py:NEVR", "specfile/utils.py:NEVRA"]}
{"id": "C36", "title": "EVR/NEVR/NEVRA strings round-trip", "statement": "from_string(str(x)) == x for every x whose components satisfy RPM's naming rules, provided a NEVR has a release or a name without dashes and a NEVRA has a release, and str(from_string(s)) reproduces s for normalised strings.", "quantifier": "all component strings", "why_tests_cant": "ambiguous dashes and colons; universal over strings", "anchors": ["specfile/utils.py:EVR.from_string", "specfile/utils.py:NEVR.from_string", "specfile/utils.py:NEVRA.from_string"]}
{"id": "C37", "title": "Reading and writing a file without changes keeps its bytes", "statement": "Loading a non-empty spec file whose only line breaks are line feeds and saving it without modification reproduces its bytes exactly, whatever they are (valid UTF-8 or not), and whether or not the file ends in a newline. What is saved after edits loads again with the same text and saves to the same bytes. In any other file every line break becomes a line feed and nothing else changes, except that a final break other than a line feed or carriage return is dropped. The loaded text consists of Unicode scalar values and of the surrogates that stand for undecodable bytes.", "quantifier": "all file contents (byte strings), all edited line lists", "why_tests_cant": "universal over strings with any line-break characters", "anchors": ["specfile/specfile.py:Specfile._read_lines", "specfile/specfile.py:Specfile.__str__", "specfile/specfile.py:Specfile.save"]}
{"id": "C38", "title": "Setting the release keeps the dist tag", "statement": "After `spec.release = r`, `spec.release` reads back r and the dist macro of the raw release (%dist, %{dist} or %{?dist}, with or without a minor bump) is kept; without one, the raw release becomes r. Holds when r itself carries no dist macro or the old release had one.", "quantifier": "all one-line raw release strings and new releases", "why_tests_cant": "universal over strings", "anchors": ["specfile/specfile.py:Specfile._split_raw_release", "specfile/specfile.py:Specfile._get_updated_release"]}
{"id": "C39", "title": "Bumping a release increments exactly one number", "statement": "Bumping a release increments exactly one number: the leading one (after an optional %release_func and '0.'), unless the rest names a pre-release (alpha, beta, rc) and there is no '0.'; otherwise the number after the last dot; otherwise '.1' is appended. The rest of the text is kept, and however often a release is bumped no value comes back.", "quantifier": "all one-line release strings, all numbers of repetitions", "why_tests_cant": "universal over strings and iterations", "anchors": ["specfile/specfile.py:Specfile._bump_release_string", "specfile/specfile.py:Specfile.bump_release"]}
{"id": "C40", "title": "Nested views of the same kind share one value", "statement": "For any program that opens, edits and leaves views (sections, tags, changelog, prep, macro definitions) in any nesting, raising and catching exceptions anywhere: a view opened while it is open is the same value, so nesting it is the same as using the outer one; every view that is opened is written back exactly once, when its outermost with block ends, inside the view it is part of, even if an exception is propagating, and the exception is raised again; nothing stays open at the end; opening the containing view (sections) explicitly makes no difference.", "quantifier": "all programs built from edits, raise, sequencing, try/except and nested with blocks, all contents, with and without autosave", "why_tests_cant": "unbounded nesting and arbitrary exception points", "anchors": ["specfile/context_management.py:ContextManager", "specfile/context_management.py:GeneratorContextManager", "specfile/specfile.py:Specfile.lines", "specfile/specfile.py:Specfile.sections"]}
{"id": "C41", "title": "Changes made through overlapping views are not lost", "statement": "Changes made through an inner view (macro definitions) while an outer view of the same lines (sections) is open, or the other way round, are present in the result.", "quantifier": "all spec files and all edits", "why_tests_cant": "quantifies over schedules and edits", "anchors": ["specfile/context_management.py:ContextManager", "specfile/specfile.py:Specfile.sections", "specfile/specfile.py:Specfile.macro_definitions"]}
{"id": "C42", "title": "Parse caching is transparent", "statement": "For any history of creating, copying, changing, dropping and parsing any number of spec instances, in which copies get identities that were never used before, a call to parse() that is skipped because of the cache has the outcome, and leaves the RPM macro context and the parsed spec, that an actual parse would.", "quantifier": "all histories of calls over all instances, including failed parses", "why_tests_cant": "quantifies over histories", "anchors": ["specfile/spec_parser.py:SpecParser.parse"]}
{"id": "C43", "title": "Parsing leaves no temporary sources and environment behind", "statement": "Whether a parse succeeds or fails, dummy source files created for it are removed, pre-existing files are untouched, and environment variables are restored; RPM runs with LANG and LC_ALL set to C.UTF-8.", "quantifier": "all directory states, source lists, orders of sets, environments and outcomes of RPM, when files in the source directory can be looked up and removed", "why_tests_cant": "quantifies over crash points", "anchors": ["specfile/spec_parser.py:SpecParser._make_dummy_sources", "specfile/spec_parser.py:SpecParser._sanitize_environment"]}
{"id": "C44", "title": "Updating a value through macros yields the requested value", "statement": "If update_value() returns, the returned value, evaluated with the new values of the macros and tags, is the requested one, and macros and tags the value does not depend on are unchanged; provided that every macro and tag is reached from the value in one way only, that no conditional expansion in the value depends on them, and that names are not misleading (see C134-C139).", "quantifier": "all values, non-empty requested values without percent signs and line breaks, and files of macros and tags nested to any depth", "why_tests_cant": "universal over strings and macro graphs of any depth", "anchors": ["specfile/specfile.py:Specfile.update_value", "specfile/value_parser.py:ValueParser.construct_regex"]}
{"id": "C45", "title": "File name extraction from a location", "statement": "get_filename_from_location returns the longest suffix of the location without '/' and, if the location contains a '/', without '='; so the result is a suffix of the input that never contains a slash, and a location without a slash is returned unchanged.", "quantifier": "all strings", "why_tests_cant": "universal over strings", "anchors": ["specfile/utils.py:get_filename_from_location"]}
{"id": "C46", "title": "Bracket counting is compositional", "statement": "count_brackets reports zero open brackets for every text built from balanced macro constructs and literals, so that single-line definitions never swallow the next line.", "quantifier": "all balanced texts of any nesting depth", "why_tests_cant": "unbounded nesting", "anchors": ["specfile/utils.py:count_brackets"]}
{"id": "C47", "title": "Conditional macro wrappers are split losslessly", "statement": "split_conditional_macro_expansion returns three parts whose concatenation is the input line, up to whitespace inside %{name args}; the wrapper parts are empty unless the whole line is one conditional expansion.", "quantifier": "all strings", "why_tests_cant": "universal over strings", "anchors": ["specfile/utils.py:split_conditional_macro_expansion"]}
{"id": "C48", "title": "Macro dump parsing", "statement": "Parsing the lines of a macro dump (a headline, the macros, a summary line) recovers the level, name, options, body and used flag of every macro, for any number of macros and any multi-line bodies, provided each macro has a tab before its body, and no line of a body ends with a backslash or looks like the first line of another macro.", "quantifier": "all lists of macro records with any alignment", "why_tests_cant": "universal over lists and bodies", "anchors": ["specfile/macros.py:Macros._parse"]}
{"id": "C49", "title": "Removing a macro terminates and removes all its definitions", "statement": "Provided that an undefined macro expands to its own name and no defined one does, Macros.remove(name) terminates within one round more than the macro has definitions; afterwards the macro is undefined and all other macros are as before, or MacroRemovalException was raised, which happens only with more than 20 definitions.", "quantifier": "all macro stacks, names and expansion outcomes", "why_tests_cant": "loop termination over all states", "anchors": ["specfile/macros.py:Macros.remove"]}
{"id": "C50", "title": "Exactly one branch of an %elif chain is taken", "statement": "In a chain %if…%elif…%elif…%else…%endif of any length at most one branch is reported valid, the first whose condition holds, else the %else branch.", "quantifier": "all chains of any length, all truth assignments", "why_tests_cant": "the number of branches and the truth assignments are unbounded", "anchors": ["specfile/conditions.py: process_conditions"]}
{"id": "C51", "title": "Conditions spread over sections do not break views", "statement": "Opening a tags view of a section never fails because a condition block is opened in one section and closed in another.", "quantifier": "all spec files accepted by RPM", "why_tests_cant": "ranges over every way of spreading blocks over sections", "anchors": ["specfile/conditions.py: process_conditions", "specfile/tags.py: Tags.parse"]}
{"id": "C52", "title": "Deleting a flag removes the flag", "statement": "After `del options.x` (or setting it to False) for an option without argument, the flag is no longer present and its neighbours are still separated.", "quantifier": "all option strings, all flags", "why_tests_cant": "quantifies over token sequences", "anchors": ["specfile/options.py: Options.__delattr__"]}
{"id": "C53", "title": "Setting a flag that is already set changes nothing", "statement": "Setting a flag option to True when it is already set leaves the option string and the value unchanged.", "quantifier": "all option strings, all flags", "why_tests_cant": "quantifies over token sequences", "anchors": ["specfile/options.py: Options.__setattr__"]}
{"id": "C54", "title": "Inserted positional arguments are separated from their neighbours", "statement": "After inserting a positional argument the text of the option string, read again, has the inserted argument as a separate positional argument.", "quantifier": "all option strings, all positions", "why_tests_cant": "quantifies over token sequences and positions", "anchors": ["specfile/options.py: Positionals.insert"]}
{"id": "C55", "title": "Writing an option string is stable", "statement": "Tokenising a string, writing it and tokenising and writing it again gives the same text as writing it once.", "quantifier": "all option strings", "why_tests_cant": "universal over strings", "anchors": ["specfile/options.py: Options.tokenize", "specfile/options.py: Token.__str__"]}
{"id": "C56", "title": "Positional arguments behave like a list", "statement": "Reading, assigning, deleting and inserting a positional argument by (possibly negative) index act on the list of positional arguments exactly as on a list, leave all options as they are, and deletion removes the token and at most one neighbouring white space token.", "quantifier": "all option strings in which options that take an argument have one, all indices", "why_tests_cant": "quantifies over token sequences and positions", "anchors": ["specfile/options.py: Positionals"]}
{"id": "C57", "title": "Editing a section by identifier is local", "statement": "sections.<id> = lines and del sections.<id> act on the first section whose identifier is id (case-insensitively), replace exactly its content (delete exactly its lines) in the serialised text and leave every other character as it was.", "quantifier": "all parsed files with stable headers, all sections, all new contents", "why_tests_cant": "needs all inputs; a test fixes one spec file", "anchors": ["specfile/sections.py:Sections.__setattr__", "specfile/sections.py:Sections.__delattr__", "specfile/sections.py:Sections.find"]}
{"id": "C58", "title": "A section is found by its own identifier", "statement": "sections.get(s.id) and `s.id in sections` succeed in any letter case and give s or an earlier section with the same normalised identifier, when the part of the identifier after the name has no upper case letters.", "quantifier": "all section lists, all sections in it, all spellings of the identifier", "why_tests_cant": "needs all inputs; a test fixes one spec file", "anchors": ["specfile/sections.py:Sections.find", "specfile/sections.py:Sections.__contains__", "specfile/sections.py:Section.normalized_id"]}
{"id": "C59", "title": "Identifiers with upper case options are found", "statement": "sections.get(s.id) also succeeds when the options of s have upper case letters, e.g. `package -n Foo`.", "quantifier": "all section lists", "why_tests_cant": "needs all inputs; a test fixes one spec file", "anchors": ["specfile/sections.py:Sections.find", "specfile/sections.py:Sections.__contains__", "specfile/sections.py:Section.normalized_id"]}
{"id": "C60", "title": "White space after a section name does not matter", "statement": "A header like `%build ` with trailing white space is found as `build`.", "quantifier": "all spec files", "why_tests_cant": "needs all inputs; a test fixes one spec file", "anchors": ["specfile/sections.py:Sections.find", "specfile/sections.py:Sections.__contains__", "specfile/sections.py:Section.normalized_id"]}
{"id": "C61", "title": "Bodies of repeated macro definitions are protected too", "statement": "A header-looking line in the body of a multi-line macro definition never opens a section, even if an equal definition occurs earlier.", "quantifier": "all spec files", "why_tests_cant": "needs all inputs; a test fixes one spec file", "anchors": ["specfile/sections.py:Sections.parse", "specfile/macro_definitions.py:MacroDefinition.get_position"]}
{"id": "C62", "title": "No header is lost or rewritten on saving", "statement": "Parsing and serialising leaves every header line as it is, whatever its options.", "quantifier": "all spec files", "why_tests_cant": "needs all inputs; a test fixes one spec file", "anchors": ["specfile/sections.py:Section.__str__", "specfile/options.py:Options.__str__"]}
{"id": "C63", "title": "Every recognised header is accepted", "statement": "A line recognised as a section header never makes the parser raise ValueError.", "quantifier": "all spec files", "why_tests_cant": "needs all inputs; a test fixes one spec file", "anchors": ["specfile/sections.py:Sections.parse", "specfile/sections.py:Section.__init__"]}
{"id": "C64", "title": "The tags found are the tags written", "statement": "Parsing a section finds exactly the lines of the form 'name separator value' (possibly wrapped in one conditional macro expansion), in order, with that name, separator and value and the validity of the line; a line has only one such reading.", "quantifier": "all sections whose tag values do not span lines, all macro expansion behaviours", "why_tests_cant": "quantifies over all lines and about sixty overlapping name patterns", "anchors": ["specfile/tags.py:Tags.parse", "specfile/tags.py:get_tag_name_regex"]}
{"id": "C65", "title": "A tag's comments are the comment lines directly above it", "statement": "The comments associated with a tag are the longest run of comment lines directly above it, and together with the remaining lines they serialise to the original lines.", "quantifier": "all lists of lines above a tag", "why_tests_cant": "unbounded input", "anchors": ["specfile/tags.py:Comments.parse", "specfile/tags.py:Comments.get_raw_data"]}
{"id": "C66", "title": "Multi-line tag values keep their trailing white space", "statement": "A tag value spanning several lines survives a parse/serialise cycle even if some of its lines end in white space.", "quantifier": "all sections", "why_tests_cant": "unbounded input", "anchors": ["specfile/tags.py:Tags.parse"]}
{"id": "C67", "title": "Lines that are no tags survive parsing into tags", "statement": "A line that is not a tag is written back unchanged even if it is a conditional macro expansion with unusual white space inside.", "quantifier": "all sections", "why_tests_cant": "unbounded input", "anchors": ["specfile/tags.py:Tags.parse", "specfile/utils.py:split_conditional_macro_expansion"]}
{"id": "C68", "title": "Parsing tags is total", "statement": "Parsing a section into tags does not fail because of the content of a comment.", "quantifier": "all sections", "why_tests_cant": "unbounded input", "anchors": ["specfile/tags.py:Tags.parse", "specfile/value_parser.py:ValueParser.parse"]}
{"id": "C69", "title": "Deleting a tag by name keeps surrounding lines", "statement": "del tags.name, tags.remove() and tags.pop() keep the lines above the tag that do not belong to it.", "quantifier": "all tag lists", "why_tests_cant": "depends on neighbours", "anchors": ["specfile/tags.py:Tags.__delattr__"]}
{"id": "C70", "title": "Deleting a tag by negative index", "statement": "del tags[-k] has the same effect as deleting by the corresponding non-negative index.", "quantifier": "all tag lists, all k", "why_tests_cant": "depends on neighbours", "anchors": ["specfile/tags.py:Tags.__delitem__"]}
{"id": "C71", "title": "Tags.insert accepts every index", "statement": "Tags.insert(i, tag) clamps i like list.insert.", "quantifier": "all tag lists and indices", "why_tests_cant": "quantifies over all indices", "anchors": ["specfile/tags.py:Tags.insert"]}
{"id": "C72", "title": "Tag positions after multi-line and equal tags", "statement": "Tag.get_position is the tag's line number also after tags spanning several lines and for one of several equal tags.", "quantifier": "all containers", "why_tests_cant": "depends on everything before the tag", "anchors": ["specfile/tags.py:Tag.get_position"]}
{"id": "C73", "title": "Numbers are distinct if written numbers increase", "statement": "If the written numbers of sources increase, all source numbers are distinct, also when some tags have no number.", "quantifier": "all tag sections", "why_tests_cant": "universal over containers; the theorem is a counterexample found while proving the general claim", "anchors": ["specfile/sources.py:Sources._get_tags"]}
{"id": "C74", "title": "Numbers are distinct over list sections", "statement": "The sources of several %sourcelist sections have distinct numbers.", "quantifier": "all lists of sections", "why_tests_cant": "universal over containers; the theorem is a counterexample found while proving the general claim", "anchors": ["specfile/sources.py:Sources._get_items"]}
{"id": "C75", "title": "Negative insertion indices", "statement": "insert(i, location) with a negative index keeps numbers distinct.", "quantifier": "all containers and negative indices", "why_tests_cant": "universal over containers; the theorem is a counterexample found while proving the general claim", "anchors": ["specfile/sources.py:Sources.insert", "specfile/sources.py:Sources._deduplicate_tag_names"]}
{"id": "C76", "title": "Distinct numbers stay distinct", "statement": "Inserting a source keeps distinct numbers distinct, whatever their order.", "quantifier": "all containers", "why_tests_cant": "universal over containers; the theorem is a counterexample found while proving the general claim", "anchors": ["specfile/sources.py:Sources.insert", "specfile/sources.py:Sources._deduplicate_tag_names"]}
{"id": "C77", "title": "Adding a patch keeps %patchlist numbers", "statement": "add_patch() does not change the numbers of patches in a %patchlist section.", "quantifier": "all containers", "why_tests_cant": "universal over containers; the theorem is a counterexample found while proving the general claim", "anchors": ["specfile/specfile.py:Specfile.add_patch", "specfile/sources.py:Sources.insert_numbered"]}
{"id": "C78", "title": "Requested patch number is honoured", "statement": "add_patch(number=n) creates a patch with number n, also with unnumbered patches.", "quantifier": "all containers and numbers", "why_tests_cant": "universal over containers; the theorem is a counterexample found while proving the general claim", "anchors": ["specfile/specfile.py:Specfile.add_patch", "specfile/sources.py:Sources._get_tag_format"]}
{"id": "C79", "title": "A new source is a valid tag", "statement": "The line written for a new source is read back as a tag.", "quantifier": "all containers and numbers", "why_tests_cant": "universal over containers; the theorem is a counterexample found while proving the general claim", "anchors": ["specfile/sources.py:Sources._get_tag_format"]}
{"id": "C80", "title": "Deleting a reversed slice", "statement": "del sources[::-1] deletes the sources of the slice and nothing else.", "quantifier": "all containers and slices with negative step", "why_tests_cant": "universal over containers; the theorem is a counterexample found while proving the general claim", "anchors": ["specfile/sources.py:Sources.__delitem__"]}
{"id": "C81", "title": "Empty slices", "statement": "sources[i:i] is an empty list.", "quantifier": "all containers", "why_tests_cant": "universal over containers; the theorem is a counterexample found while proving the general claim", "anchors": ["specfile/sources.py:Sources.__getitem__"]}
{"id": "C82", "title": "Conditions in source lists", "statement": "%if, %endif and blank lines in a %sourcelist section are not sources.", "quantifier": "all source list sections", "why_tests_cant": "universal over containers; the theorem is a counterexample found while proving the general claim", "anchors": ["specfile/sourcelist.py:Sourcelist.parse"]}
{"id": "C83", "title": "Deleting keeps unnumbered sources' numbers", "statement": "Deleting a source does not change the numbers of other sources, also of those without a written number.", "quantifier": "all containers", "why_tests_cant": "universal over containers; the theorem is a counterexample found while proving the general claim", "anchors": ["specfile/sources.py:Sources.__delitem__"]}
{"id": "C84", "title": "Conditional commands in %prep", "statement": "A command of %prep wrapped in a conditional macro expansion, as %{?fedora:echo}, keeps its wrapper when the section is read and written.", "quantifier": "all %prep sections", "why_tests_cant": "universal over sections; the theorem is a counterexample found while proving the general claim", "anchors": ["specfile/prep.py:Prep.parse"]}
{"id": "C85", "title": "Removing the first macro of %prep", "statement": "remove_patch_macro(n) also removes a %patch macro that is the first macro of the section.", "quantifier": "all %prep sections that start with a %patch macro", "why_tests_cant": "universal over sections; the theorem is a counterexample found while proving the general claim", "anchors": ["specfile/prep.py:Prep.remove_patch_macro"]}
{"id": "C86", "title": "Adding a patch macro", "statement": "add_patch_macro adds exactly one line to the section and changes no other; the new macro has the number and options asked for; when the patch numbers of the section grow and the new number is not among them, they still grow afterwards.", "quantifier": "all sections with readable patch numbers, all numbers, styles and options", "why_tests_cant": "universal over sections and option sets", "anchors": ["specfile/prep.py:Prep.add_patch_macro"]}
{"id": "C87", "title": "The number of a patch macro", "statement": "The number of a %patch macro is the one in its name, or the argument of -P, or the first positional argument, or 0; assigning a number makes it read back and changes no other option or argument.", "quantifier": "all %patch macros, all numbers", "why_tests_cant": "universal over command lines", "anchors": ["specfile/prep.py:PatchMacro.number"]}
{"id": "C88", "title": "Automatic release and changelog detection", "statement": "`has_autorelease` holds exactly when the raw release refers to %autorelease, in braces or not, directly or inside conditional expansions; `has_autochangelog` holds exactly when a line of the changelog that is not a comment refers to %autochangelog, lines with unterminated macros being passed over.", "quantifier": "all raw releases, all section contents", "why_tests_cant": "universal over texts with any nesting", "anchors": ["specfile/specfile.py:Specfile.has_autorelease", "specfile/specfile.py:Specfile.contains_autochangelog"]}
{"id": "C89", "title": "Flattening keeps the leaves in order", "statement": "`ValueParser.flatten` gives the nodes that are not conditional expansions, each in its place, with the ones inside conditional expansions in place of the expansion, at any depth.", "quantifier": "all node lists", "why_tests_cant": "universal over nesting depth", "anchors": ["specfile/value_parser.py:ValueParser.flatten"]}
{"id": "C90", "title": "Inserting, deleting and relocating a source leaves everything else alone", "statement": "Inserting a source adds one tag (or one list entry) and changes nothing else: the value, comments, validity flag, prefix and suffix of every other tag stay, only written numbers of source tags below may change, the lines above tags stay in order, and list entries keep their comments. The new tag is named, numbered (with the same zero padding) and aligned like the neighbouring source; the first patch goes below the last tag named Source*. Deleting removes one tag or entry and keeps all others; assigning a location changes only that location.", "quantifier": "all containers read from a spec file, indices, numbers and locations", "why_tests_cant": "frame condition over unboundedly many tags, comments and list entries", "anchors": ["specfile/sources.py:Sources.insert", "specfile/sources.py:Sources.insert_numbered", "specfile/sources.py:Sources._get_tag_format", "specfile/sources.py:Patches._get_initial_tag_setup", "specfile/sources.py:Sources.__delitem__", "specfile/sources.py:Sources.__setitem__"]}
{"id": "C91", "title": "The first patch goes directly below the last source", "statement": "If there are Source tags and no patches, the first patch is inserted directly below the last Source tag.", "quantifier": "all tag sections", "why_tests_cant": "depends on which tag names occur below the sources", "anchors": ["specfile/sources.py:Patches._get_initial_tag_setup"]}
{"id": "C92", "title": "An empty spec file can be loaded", "statement": "Every file, including an empty one, can be loaded.", "quantifier": "all file contents", "why_tests_cant": "Only a proof over all contents shows that the empty file is the only one that fails.", "anchors": ["specfile/specfile.py:Specfile._read_lines"]}
{"id": "C93", "title": "A failed save keeps the old file", "statement": "If save() fails, the file on disk keeps its previous content; save() fails only for text with surrogates that do not stand for undecodable bytes.", "quantifier": "all texts", "why_tests_cant": "The characters that cannot be encoded must be characterised for all texts.", "anchors": ["specfile/specfile.py:Specfile.save"]}
{"id": "C94", "title": "Line breaks other than line feeds survive", "statement": "Loading and saving without modification reproduces the bytes of files with carriage returns, form feeds and other Unicode line breaks.", "quantifier": "all file contents", "why_tests_cant": "Whether any such file survives is a statement about all contents.", "anchors": ["specfile/specfile.py:Specfile._read_lines", "specfile/specfile.py:Specfile.__str__"]}
{"id": "C95", "title": "Deleting a %prep macro by a negative index", "statement": "del prep.macros[-1] removes the last macro and keeps every other line in place.", "quantifier": "all lists of macros", "why_tests_cant": "Must hold for every list of macros and preceding lines.", "anchors": ["specfile/prep.py:PrepMacros.__delitem__"]}
{"id": "C96", "title": "An exception raised inside a view reaches the caller", "statement": "An exception that the body of a with block raises propagates out of the block, whatever its type and whether or not the view was open already.", "quantifier": "all views, all programs, all contents", "why_tests_cant": "the exception can be raised at any point of any body", "anchors": ["specfile/context_management.py:GeneratorContextManager", "specfile/context_management.py:ContextManager"]}
{"id": "C97", "title": "Views of different sections can be nested freely", "statement": "Editing one section through an inner view while the view of another section is open gives the same lines and the same saved file as editing them one after the other.", "quantifier": "all spec files, all pairs of views of sections with different names, all edits", "why_tests_cant": "quantifies over files, edits and interleavings", "anchors": ["specfile/context_management.py:ContextManager", "specfile/specfile.py:Specfile.tags", "specfile/specfile.py:Specfile.changelog", "specfile/specfile.py:Specfile.prep"]}
{"id": "C98", "title": "Different spellings of one section give the same view", "statement": "tags() and tags(\"package\") (or any two spellings of the same section) name the same section, so nested use shares one value and no change is lost.", "quantifier": "all spec files, all spellings, all edits", "why_tests_cant": "quantifies over files and edits", "anchors": ["specfile/context_management.py:ContextManager", "specfile/specfile.py:Specfile.tags"]}
{"id": "C99", "title": "Looking at a spec file changes nothing", "statement": "For a spec file whose lines are written plainly (as specified: no odd line ends, readable section headers, at most one section of each name, regular tag lines), opening any views in any nesting, raising and catching exceptions, without editing, leaves the lines and the file as they are.", "quantifier": "all plainly written spec files and all programs without edits", "why_tests_cant": "quantifies over files and programs", "anchors": ["specfile/context_management.py:ContextManager", "specfile/specfile.py:Specfile.tags", "specfile/specfile.py:Specfile.changelog", "specfile/specfile.py:Specfile.prep", "specfile/specfile.py:Specfile.macro_definitions"]}
{"id": "C100", "title": "An edit through a view is written to the section it shows and nowhere else", "statement": "Opening one view (tags, changelog, prep, sections or macro definitions) of a spec file, changing its value in any way and leaving it gives the lines in which the first section of that name has the new content, with all other sections as they were; the file is written if and only if autosave is set, and every view involved is loaded and written once.", "quantifier": "all spec files that parse, all views, all changes of the value", "why_tests_cant": "quantifies over files and edits", "anchors": ["specfile/context_management.py:ContextManager", "specfile/specfile.py:Specfile.tags", "specfile/specfile.py:Specfile.changelog", "specfile/specfile.py:Specfile.prep", "specfile/specfile.py:Specfile.macro_definitions"]}
{"id": "C101", "title": "Macro removal and bodies that expand to the macro's own name", "statement": "Macros.remove(name) leaves the macro undefined even if an older definition expands to the text %{name}.", "quantifier": "all macro stacks", "why_tests_cant": "quantifies over all stacks of definitions", "anchors": ["specfile/macros.py:Macros.remove"]}
{"id": "C102", "title": "Macro removal of built-in macros ends", "statement": "Macros.remove(name) ends for a macro that stays defined whatever is deleted.", "quantifier": "all names and contexts, unbounded number of rounds", "why_tests_cant": "non-termination cannot be observed by a test", "anchors": ["specfile/macros.py:Macros.remove"]}
{"id": "C103", "title": "The macro context of a parse depends on the configuration and the arguments only", "statement": "Macros.define() leaves exactly one definition of its macro and changes no other; Macros.reinit() leaves exactly the configured macros up to the given level; a spec file is parsed in a context where every macro passed as macros or extra_macros has the value given last (no definition for None), _sourcedir is the given directory, and everything else is as configured, whatever was defined before.", "quantifier": "all prior contexts, configurations, macro lists and source directories", "why_tests_cant": "quantifies over all prior contexts and lists", "anchors": ["specfile/macros.py:Macros.define", "specfile/macros.py:Macros.reinit", "specfile/spec_parser.py:SpecParser._do_parse"]}
{"id": "C104", "title": "Macro dumps with macros without a body and with continued lines", "statement": "Parsing a macro dump recovers macros without a body, which RPM prints without a tab, and bodies whose lines end with a backslash.", "quantifier": "all dumps", "why_tests_cant": "universal over dumps", "anchors": ["specfile/macros.py:Macros._parse"]}
{"id": "C105", "title": "Copies are parsed", "statement": "The spec of a deep copy can be parsed, whatever was parsed and dropped before.", "quantifier": "all histories of copies and dropped instances", "why_tests_cant": "depends on the reuse of object identities", "anchors": ["specfile/spec_parser.py:SpecParser.__deepcopy__", "specfile/spec_parser.py:SpecParser.parse", "specfile/spec_parser.py:SpecParser.id"]}
{"id": "C106", "title": "Changes outside of the spec file are noticed", "statement": "Parsing again after a macro or a file changed gives what a fresh parse would give.", "quantifier": "all changes of the macro context and the file system between two parses", "why_tests_cant": "quantifies over all changes", "anchors": ["specfile/spec_parser.py:SpecParser.parse"]}
{"id": "C107", "title": "Failed parses can be repeated", "statement": "After a failed parse, parsing contents that are correct succeeds.", "quantifier": "all errors and all later histories", "why_tests_cant": "quantifies over histories", "anchors": ["specfile/spec_parser.py:SpecParser.parse"]}
{"id": "C108", "title": "Interrupted parses can be repeated", "statement": "After a parse that was interrupted (as by Ctrl-C), parsing the contents again gives a parsed spec.", "quantifier": "all points at which a parse can be interrupted", "why_tests_cant": "quantifies over crash points", "anchors": ["specfile/spec_parser.py:SpecParser.parse"]}
{"id": "C109", "title": "No dummy sources are left behind after errors of the file system", "statement": "When looking up, writing or removing a dummy source fails, all other dummy sources are removed.", "quantifier": "all failure points", "why_tests_cant": "quantifies over crash points", "anchors": ["specfile/spec_parser.py:SpecParser._make_dummy_sources"]}
{"id": "C110", "title": "What RPM sees of the source directory", "statement": "While dummy sources exist, all existing files have their contents, every missing source has a dummy file with the signature of its extension, the sources that must not be empty have text, and no other files exist; the created paths are exactly the ones reported.", "quantifier": "all directory states and source lists", "why_tests_cant": "quantifies over all directory states", "anchors": ["specfile/spec_parser.py:SpecParser._make_dummy_sources"]}
{"id": "C111", "title": "Sources that must not be empty are not empty", "statement": "A missing source that is referenced from a shell expansion in a tag has text in its dummy file during the final parse.", "quantifier": "all source lists", "why_tests_cant": "quantifies over all source lists", "anchors": ["specfile/spec_parser.py:SpecParser._make_dummy_sources", "specfile/spec_parser.py:SpecParser._do_parse"]}
{"id": "C112", "title": "Parse errors are RPMExceptions", "statement": "When RPM rejects a spec file without force_parse, the error is an RPMException.", "quantifier": "all spec files whose contents can be encoded and all behaviours of RPM", "why_tests_cant": "quantifies over all contents and outcomes of RPM", "anchors": ["specfile/spec_parser.py:SpecParser._do_parse"]}
{"id": "C113", "title": "Spec files that are not valid UTF-8 can be parsed", "statement": "A spec file that can be read and saved can be parsed by RPM.", "quantifier": "all files with bytes that are not valid UTF-8", "why_tests_cant": "quantifies over all files", "anchors": ["specfile/spec_parser.py:SpecParser._do_parse", "specfile/specfile.py:Specfile._read_lines"]}
{"id": "C114", "title": "Errors with force_parse are RPMExceptions", "statement": "When RPM rejects a spec file with force_parse, the error is an RPMException.", "quantifier": "all spec files that RPM rejects", "why_tests_cant": "quantifies over all contents", "anchors": ["specfile/spec_parser.py:SpecParser._do_parse"]}
{"id": "C115", "title": "When a parse is tainted", "statement": "A parse is tainted if and only if force_parse is set and RPM rejected the spec file as it is; otherwise force_parse makes no difference.", "quantifier": "all spec files, worlds and outcomes of RPM", "why_tests_cant": "quantifies over all contents and outcomes of RPM", "anchors": ["specfile/spec_parser.py:SpecParser._do_parse"]}
{"id": "C116", "title": "Message of RPMException", "statement": "The message of an RPMException is the text of the first error reported by RPM, or everything RPM reported if there is none.", "quantifier": "all outputs of RPM", "why_tests_cant": "quantifies over all outputs", "anchors": ["specfile/exceptions.py:RPMException.__str__"]}
{"id": "C117", "title": "Message of RPMException for unusual errors", "statement": "The message is the whole text of the first error, even if that contains \"error: \" or is empty.", "quantifier": "all outputs of RPM", "why_tests_cant": "quantifies over all outputs", "anchors": ["specfile/exceptions.py:RPMException.__str__"]}
{"id": "C118", "title": "Printed macro nodes are parsed to themselves", "statement": "The text of a list of value nodes (literals, shell and expression expansions, plain, enclosed, conditional and built-in macros, nested to any depth) is parsed to precisely these nodes, provided the nodes are ones a parse can produce: balanced brackets, no stray percent signs, conditional prefixes of ? and !, names ended by what follows them.", "quantifier": "all lists of nodes in that form, nested to any depth", "why_tests_cant": "node trees are unbounded and every neighbouring pair of nodes may interact (names running into the next literal, doubled percent signs, nested brackets)", "anchors": ["specfile/value_parser.py: ValueParser.parse", "specfile/value_parser.py: Node.__str__"]}
{"id": "C119", "title": "A bracket after a backslash does not end a macro", "statement": "Parsing follows expandMacro() of RPM (docstring), where a character after a backslash is skipped when the matching bracket is searched: a closing bracket after a backslash does not end a macro.", "quantifier": "all macros, bodies and texts after them", "why_tests_cant": "quantifies over all texts", "anchors": ["specfile/value_parser.py: ValueParser.parse (find_matching_parenthesis)"]}
{"id": "C120", "title": "%** is one macro", "statement": "%** is parsed as one macro substitution with the name **.", "quantifier": "all texts after it", "why_tests_cant": "quantifies over all texts", "anchors": ["specfile/value_parser.py: ValueParser.parse (find_macro_end)"]}
{"id": "C121", "title": "Included files are found in a spec file RPM rejects", "statement": "With force_parse, the files for which dummy sources are made first are exactly those in the source directory that the %include lines of the spec file name, in order, where a line ending in a backslash is continued on the next one.", "quantifier": "all spec files, numbers of %include lines and continuations", "why_tests_cant": "quantifies over all texts and all ways to continue lines", "anchors": ["specfile/spec_parser.py: SpecParser._do_parse (get_included_files)"]}
{"id": "C122", "title": "Loaded files are found in a spec file RPM rejects", "statement": "With force_parse, the files in the source directory that %{load:...} names are found, and no others, in order, at any depth of conditional macros.", "quantifier": "all spec files that are the text of value nodes in canonical form (see C118)", "why_tests_cant": "macros nest to any depth", "anchors": ["specfile/spec_parser.py: SpecParser._do_parse (get_loaded_files)"]}
{"id": "C123", "title": "Sources referenced by empty tags are found", "statement": "With force_parse, the sources that must not be empty are exactly those in the source directory that are referred to as %SOURCEn, %{SOURCEn} or %{S:n} (with ? and ! in between) in shell expansions, at any depth of conditional macros, of tags that expand to nothing; every text has a unique list of such references.", "quantifier": "all spec files, tags and texts", "why_tests_cant": "quantifies over all texts; the references overlap with each other and with other macros", "anchors": ["specfile/spec_parser.py: SpecParser._do_parse (get_referenced_sources)"]}
{"id": "C124", "title": "Outcome of a parse that is not skipped", "statement": "A parse that is not skipped uses the macros of the parser followed by the extra macros. A successful one sets the parsed spec and whether it is tainted; one rejected by RPM raises RPMException, leaves no parsed spec, is untainted and is not remembered as the last parse. Other parsers are unaffected.", "quantifier": "all parsers, contents, macros and worlds", "why_tests_cant": "quantifies over all states of the process", "anchors": ["specfile/spec_parser.py: SpecParser.parse"]}
{"id": "C125", "title": "The result of a parse is what RPM makes of the contents", "statement": "The result of a successful parse is that of a full RPM parse of exactly the given contents, in the C.UTF-8 locale, with dummy files for the sources of a first, quick parse; the first parse sees no dummy files, or (tainted) only those for included, loaded and referenced sources.", "quantifier": "all contents, macros, source directories, sets of existing files and RPM behaviours", "why_tests_cant": "quantifies over all file systems and RPM behaviours", "anchors": ["specfile/spec_parser.py: SpecParser._do_parse", "specfile/spec_parser.py: SpecParser._make_dummy_sources", "specfile/spec_parser.py: SpecParser._sanitize_environment"]}
{"id": "C126", "title": "The e-mail is added to the author once", "statement": "The author of the entry is the author passed and the e-mail passed in angle brackets, in every %changelog section.", "quantifier": "all authors and e-mails, all spec files with several %changelog sections", "why_tests_cant": "state carried through a loop over any number of sections", "anchors": ["specfile/specfile.py:Specfile.add_changelog_entry"]}
{"id": "C127", "title": "The e-mail passed is used", "statement": "If an e-mail is passed and no author, the entries have that e-mail, or at least are the same in all sections.", "quantifier": "all e-mails and surroundings in which an author is found", "why_tests_cant": "universal over surroundings and sections", "anchors": ["specfile/specfile.py:Specfile.add_changelog_entry", "specfile/changelog.py:guess_packager"]}
{"id": "C128", "title": "The EVR passed is expanded once", "statement": "The EVR in the entries is the expansion of the EVR passed, in every %changelog section.", "quantifier": "all EVRs and results of expansion", "why_tests_cant": "state carried through a loop, for every expansion", "anchors": ["specfile/specfile.py:Specfile.add_changelog_entry"]}
{"id": "C129", "title": "An entry is added to all changelogs or to none", "statement": "If add_changelog_entry() raises, no %changelog section has changed.", "quantifier": "all spec files and points of failure", "why_tests_cant": "quantifies over failure points", "anchors": ["specfile/specfile.py:Specfile.add_changelog_entry", "specfile/specfile.py:Specfile.contains_autochangelog"]}
{"id": "C130", "title": "How the author of an entry is found", "statement": "If no author is passed, it is $RPM_PACKAGER if set, otherwise the expansion of %packager if defined, otherwise the name and e-mail known to git, with the account's full name or user name in place of a missing name. If it is empty (which an empty $RPM_PACKAGER is enough for), SpecfileException is raised and no section changes.", "quantifier": "all environments, macros, git configurations and accounts, all spec files", "why_tests_cant": "universal over surroundings", "anchors": ["specfile/changelog.py:guess_packager", "specfile/changelog.py:_getent_name", "specfile/specfile.py:Specfile.add_changelog_entry"]}
{"id": "C131", "title": "has_autochangelog finds automatic changelogs in any section", "statement": "has_autochangelog is true exactly if some %changelog section is automatic.", "quantifier": "all spec files in which all changelogs can be examined", "why_tests_cant": "universal over sections", "anchors": ["specfile/specfile.py:Specfile.has_autochangelog"]}
{"id": "C132", "title": "Deleting a changelog entry deletes its lines only", "statement": "Deleting an entry by a non-negative index removes its header, its content and the first blank line after it, and keeps all other lines.", "quantifier": "all changelogs and non-negative indices", "why_tests_cant": "universal over changelogs", "anchors": ["specfile/changelog.py:Changelog.__delitem__"]}
{"id": "C133", "title": "Changelog entries can be deleted by negative index", "statement": "Deleting an entry by a negative index that is in range succeeds.", "quantifier": "all changelogs and negative indices", "why_tests_cant": "universal over changelogs", "anchors": ["specfile/changelog.py:Changelog.__delitem__"]}
{"id": "C134", "title": "An update is right if a macro is reached in two ways", "statement": "update_value() yields the requested value also if several references in the value depend on the same macro or tag.", "quantifier": "all values made of references and literals", "why_tests_cant": "universal over macro graphs", "anchors": ["specfile/specfile.py:Specfile.update_value", "specfile/value_parser.py:ValueParser.construct_regex"]}
{"id": "C135", "title": "An update is right if there are conditional expansions on macros from outside of the file", "statement": "update_value() yields the requested value also if the value contains conditional expansions such as %{?fedora:...} that are not empty.", "quantifier": "all values made of literals and conditional expansions", "why_tests_cant": "universal over values", "anchors": ["specfile/specfile.py:Specfile.update_value", "specfile/value_parser.py:ValueParser.construct_regex"]}
{"id": "C136", "title": "An update does not change which macros are referred to", "statement": "update_value() yields the requested value also if the value contains macros without braces that are not defined in the file.", "quantifier": "all values made of literals and macros without braces", "why_tests_cant": "universal over values", "anchors": ["specfile/specfile.py:Specfile.update_value", "specfile/value_parser.py:ValueParser.construct_regex"]}
{"id": "C137", "title": "A value can be updated to the empty string", "statement": "update_value() with an empty requested value yields a value that evaluates to it.", "quantifier": "all values", "why_tests_cant": "universal over values", "anchors": ["specfile/specfile.py:Specfile.update_value", "specfile/value_parser.py:ValueParser.construct_regex"]}
{"id": "C138", "title": "Updates do not depend on the names of macros", "statement": "update_value() yields the requested value whatever the macros are called, including names that start with sub_.", "quantifier": "all macro names", "why_tests_cant": "universal over names", "anchors": ["specfile/specfile.py:Specfile.update_value", "specfile/value_parser.py:ValueParser.construct_regex"]}
{"id": "C139", "title": "Macros and tags are told apart by their exact names", "statement": "update_value() updates the macro a name refers to also if there is a tag whose name differs in case only.", "quantifier": "all files", "why_tests_cant": "universal over names", "anchors": ["specfile/specfile.py:Specfile.update_value", "specfile/value_parser.py:ValueParser.construct_regex"]}
{"id": "C140", "title": "A constructed pattern matches exactly what the value can stand for", "statement": "If the pattern made of a value matches a requested text, then the text built from the template stands for the requested text when every group has the matched value: literals stand for themselves, other macros for their expansions, conditional expansions for their body exactly if the condition holds after the macros to flip are flipped. References, conditional expansions and the delimiters after references are kept.", "quantifier": "all values, sets of modifiable and flippable names and requested texts", "why_tests_cant": "universal over values and texts", "anchors": ["specfile/value_parser.py:ValueParser.construct_regex"]}
{"id": "C141", "title": "Updates touch only what is in front of the value, and end", "statement": "update_value() changes only values of macros and tags in front of the given position, marks everything it changes, leaves no macro locked, and ends.", "quantifier": "all values, requested values, positions and files", "why_tests_cant": "universal over macro graphs, including cyclic ones", "anchors": ["specfile/specfile.py:Specfile.update_value", "specfile/value_parser.py:ValueParser.construct_regex"]}
{"id": "C142", "title": "Which exceptions an update raises", "statement": "update_value() raises only what parsing of values, macro expansion and re.compile() raise; it never fails to find a macro or a field of a template.", "quantifier": "all values, requested values and files", "why_tests_cant": "universal over inputs", "anchors": ["specfile/specfile.py:Specfile.update_value", "specfile/value_parser.py:ValueParser.construct_regex"]}
{"id": "C143", "title": "An update goes through the macros if they can give what is requested", "statement": "If there are non-empty values of the macros and tags with which the value gives the requested one, without any change of its text, update_value() keeps all references and other macros in the value instead of replacing it by the requested text; provided that references do not follow each other directly and names do not start with sub_.", "quantifier": "all values without conditions on the macros of the file, requested values and files", "why_tests_cant": "universal over strings and macro graphs", "anchors": ["specfile/specfile.py:Specfile.update_value", "specfile/value_parser.py:ValueParser.construct_regex"]}
{"id": "C144", "title": "A value that refers to a macro is not assigned to that macro", "statement": "If a value is a reference to a macro or a tag and the requested value mentions that macro or tag, update_value() changes no macro or tag and returns the requested value.", "quantifier": "all references, requested values without line breaks and files", "why_tests_cant": "universal over values with nested conditional expansions", "anchors": ["specfile/specfile.py:Specfile.update_value"]}
{"id": "C145", "title": "Reading tags does not touch the file", "statement": "Entering the tags() view and leaving it without modifying the tags leaves every line of the spec file as it was, even if reading or using the tags raises an exception, for files whose lines have no trailing whitespace and whose section headers have canonical options.", "quantifier": "all files of tidy lines, all expansion results", "why_tests_cant": "universal over files", "anchors": ["specfile/specfile.py:Specfile.tags", "specfile/specfile.py:Specfile.sections", "specfile/specfile.py:Specfile.lines"]}
{"id": "C146", "title": "Getting a tag by name", "statement": "Accessing a tag of a spec file by name (version, release, ...) gives the value of the first tag of that name in the package section that is not in a false branch of a condition, or of the first of that name if all are; None if there is no such tag; and raises if the tags cannot be read.", "quantifier": "all files and names", "why_tests_cant": "universal over files", "anchors": ["specfile/specfile.py:Specfile.version", "specfile/specfile.py:Specfile.tags", "specfile/tags.py:Tags.__getattr__"]}
{"id": "C147", "title": "Setting a tag changes its value only", "statement": "Setting a tag by name replaces the value of the tag that the name stands for in its lines; everything else in the file stays, also the text around the value.", "quantifier": "all files, names and values", "why_tests_cant": "universal over files", "anchors": ["specfile/specfile.py:Specfile.version", "specfile/specfile.py:Specfile.tags", "specfile/tags.py:Tags.__setattr__"]}
{"id": "C148", "title": "A value that was set is read again", "statement": "After a tag is set to a value without line breaks, surrounding white space and unbalanced brackets, reading the file again shows the same tags, the designated one with the new value, and the same other content.", "quantifier": "all tidy files whose tag is on one line outside macro definitions, all such values", "why_tests_cant": "universal over files and values; depends on every parser involved", "anchors": ["specfile/specfile.py:Specfile.version", "specfile/specfile.py:Specfile.tags", "specfile/tags.py:Tags.parse", "specfile/sections.py:Sections.parse"]}
{"id": "C149", "title": "Version and release are set together", "statement": "set_version_and_release() replaces the value of the Version tag and the release part of the Release tag and nothing else.", "quantifier": "all files with both tags", "why_tests_cant": "universal over files", "anchors": ["specfile/specfile.py:Specfile.set_version_and_release"]}
{"id": "C150", "title": "Version and release are set both or not at all", "statement": "If set_version_and_release() fails, the file is unchanged.", "quantifier": "all files", "why_tests_cant": "universal over files", "anchors": ["specfile/specfile.py:Specfile.set_version_and_release"]}
{"id": "C151", "title": "The release property", "statement": "Setting the release replaces the Release tag by the given release with the old dist part; getting it gives the part without dist.", "quantifier": "all files with a Release tag", "why_tests_cant": "universal over files", "anchors": ["specfile/specfile.py:Specfile.release"]}
{"id": "C152", "title": "What bump_release() changes", "statement": "bump_release() leaves files with %autorelease alone; otherwise it bumps the body of the first macro called release or baserelease, and if there is none, the value of the Release tag; nothing else changes.", "quantifier": "all files with a Release tag", "why_tests_cant": "universal over files", "anchors": ["specfile/specfile.py:Specfile.bump_release"]}
{"id": "C153", "title": "bump_release() changes the effective release", "statement": "After bump_release() the expanded release is different.", "quantifier": "all files with a Release tag without %autorelease", "why_tests_cant": "universal over files", "anchors": ["specfile/specfile.py:Specfile.bump_release"]}
{"id": "C154", "title": "update_tag() changes only unprotected entities", "statement": "Whatever happens in update_tag(), including exceptions, the file differs from the original only in values of tags and bodies of macro definitions without parameters whose names are not protected, in whether such definitions are commented out, and in the value of the tag to be updated.", "quantifier": "all files, names, values, protected patterns and expansions", "why_tests_cant": "universal, includes all failures half way", "anchors": ["specfile/specfile.py:Specfile.update_tag", "specfile/specfile.py:Specfile.update_value"]}
{"id": "C155", "title": "Updating a tag to its present value changes nothing", "statement": "update_tag() with the raw value the tag has already leaves the file unchanged.", "quantifier": "all files with readable tags and macros", "why_tests_cant": "universal over files", "anchors": ["specfile/specfile.py:Specfile.update_tag", "specfile/specfile.py:Specfile.update_value"]}
{"id": "C156", "title": "A failing update changes nothing", "statement": "If update_tag() raises an exception, the file is unchanged.", "quantifier": "all files and values", "why_tests_cant": "universal over files", "anchors": ["specfile/specfile.py:Specfile.update_tag", "specfile/specfile.py:Specfile.update_value"]}
{"id": "C157", "title": "Updates change effective tags and macros", "statement": "update_tag() changes tags and macros that are in effect, not those in false branches.", "quantifier": "all files and values", "why_tests_cant": "universal over files", "anchors": ["specfile/specfile.py:Specfile.update_tag", "specfile/specfile.py:Specfile.update_value", "specfile/tags.py:Tags.find", "specfile/tags.py:Tags.get"]}
{"id": "C158", "title": "What update_version() does with pre-releases", "statement": "update_version() without a pattern updates the Version tag; with one, it puts a tilde in place of the delimiter group if the pattern matches, and comments the pre-release macro in or out accordingly before the update; nothing else is changed before the update. A pattern without a group raises an exception and changes nothing.", "quantifier": "all files, versions, patterns and macros", "why_tests_cant": "universal over files and patterns", "anchors": ["specfile/specfile.py:Specfile.update_version"]}
{"id": "C159", "title": "The tilde is put in place of the delimiter", "statement": "If the pattern matches, update_version() puts the tilde between the version and the pre-release part.", "quantifier": "all patterns and versions", "why_tests_cant": "universal over patterns", "anchors": ["specfile/specfile.py:Specfile.update_version"]}
{"id": "C160", "title": "Lines in the body of a macro are not tags", "statement": "A line that belongs to the body of a macro definition is not shown as a tag.", "quantifier": "all files", "why_tests_cant": "universal over files", "anchors": ["specfile/tags.py:Tags.parse", "specfile/specfile.py:Specfile.tags"]}
{"id": "C161", "title": "Tags of several lines do not matter for updates", "statement": "Whether update_tag() goes through a macro does not depend on how many lines the tags above it have.", "quantifier": "all files", "why_tests_cant": "universal over files", "anchors": ["specfile/tags.py:Tag.get_position", "specfile/specfile.py:Specfile.update_value"]}
{"id": "C162", "title": "What update_tag() does to the file", "statement": "After a successful update_tag() the macros and tags that the old value of the tag was made of have new values and the tag has a new value such that, with them, the tag evaluates to the requested value; the file shows exactly these values when it is read again, every other tag and macro definition is as it was, and the file keeps its shape.", "quantifier": "all files without peculiarities (tidy lines, no macro defined twice with the same body, no tag in a macro body), all tags on a line of their own whose macros and tags are reached in one way only and are on lines of their own, all requested values without % and line breaks, all expansion results", "why_tests_cant": "universal over files, values and expansions; rests on the regular expression made from the value, on every parser and on three writes in sequence", "anchors": ["specfile/specfile.py:Specfile.update_tag", "specfile/specfile.py:Specfile.update_value", "specfile/value_parser.py:ValueParser.construct_regex"]}
{"id": "C163", "title": "Setting the body of a macro changes that macro only", "statement": "After the body of a macro definition is set through macro_definitions(), reading the file again shows that body, the same other definitions and the same tags.", "quantifier": "all files without peculiarities, all definitions on one line that are the only ones of their name, all bodies without line breaks, surrounding white space, unbalanced brackets or a backslash at the end", "why_tests_cant": "universal over files and bodies", "anchors": ["specfile/specfile.py:Specfile.macro_definitions", "specfile/specfile.py:Specfile.tags", "specfile/macro_definitions.py:MacroDefinitions.parse"]}
{"id": "C164", "title": "Setting a tag does not change macros", "statement": "After a tag is set, reading the macro definitions of the file again shows the definitions it had.", "quantifier": "all files without peculiarities with tags on one line each, all such values", "why_tests_cant": "universal over files and values", "anchors": ["specfile/specfile.py:Specfile.macro_definitions", "specfile/specfile.py:Specfile.tags"]}
{"id": "C165", "title": "Any text survives parsing into macro definitions", "statement": "Parsing lines into macro definitions and serialising them yields the same lines, whatever the lines are.", "quantifier": "all line lists", "why_tests_cant": "the regular expression, the continuation rules and the comment-out styles interact over unboundedly many lines", "anchors": ["specfile/macro_definitions.py:MacroDefinitions._parse", "specfile/macro_definitions.py:MacroDefinitions.get_raw_data", "specfile/macro_definitions.py:MacroDefinition.get_raw_data"]}
{"id": "C166", "title": "Positions of equal macro definitions", "statement": "get_position() is right for every definition, also if there are equal ones.", "quantifier": "all containers and all definitions in them", "why_tests_cant": "depends on equality of arbitrary other definitions and on the number of lines of everything before it", "anchors": ["specfile/macro_definitions.py:MacroDefinition.get_position"]}
{"id": "C167", "title": "Deleting macro definitions by negative index or by name", "statement": "Deleting a definition by a negative index or by name removes its own lines only.", "quantifier": "all containers, all valid negative indices, all names", "why_tests_cant": "requires every container and every index", "anchors": ["specfile/macro_definitions.py:MacroDefinitions.__delitem__", "specfile/macro_definitions.py:MacroDefinitions.__delattr__"]}
{"id": "C168", "title": "Changelogs with entries without EVR can be filtered", "statement": "filter() returns a changelog for every changelog, also if entries have no EVR.", "quantifier": "all changelogs", "why_tests_cant": "universal over lengths and comparison outcomes", "anchors": ["specfile/changelog.py:Changelog.filter"]}
{"id": "C169", "title": "Extended timestamps with zero padding are recognised", "statement": "An entry assembled from a timestamp with time is recognised as extended, whatever the padding of the day is.", "quantifier": "all timestamps and paddings", "why_tests_cant": "universal over authors and EVR strings, including ones with dashes and brackets", "anchors": ["specfile/changelog.py:ChangelogEntry.assemble", "specfile/changelog.py:ChangelogEntry.evr", "specfile/changelog.py:ChangelogEntry.extended_timestamp"]}
{"id": "C170", "title": "Parsing a value fails with UnterminatedMacroException only", "statement": "ValueParser.parse(value) gives nodes or raises UnterminatedMacroException.", "quantifier": "all strings", "why_tests_cant": "universal over strings with unbounded nesting", "anchors": ["specfile/value_parser.py:ValueParser.parse", "specfile/value_parser.py:Node"]}
{"id": "C171", "title": "References after an escaped percent sign are found", "statement": "Every %name reference outside an escaped %% that occurs in a value is reported as a macro substitution node.", "quantifier": "all strings", "why_tests_cant": "universal over strings", "anchors": ["specfile/value_parser.py:ValueParser.parse"]}
{"id": "C172", "title": "Equal EVRs have equal hashes", "statement": "EVRs that compare equal have equal hashes.", "quantifier": "all EVR values", "why_tests_cant": "algebraic laws over all triples", "anchors": ["specfile/utils.py:EVR", "specfile/utils.py:NEVR", "specfile/utils.py:NEVRA"]}
{"id": "C173", "title": "NEVRs without release are read back", "statement": "from_string(str(x)) == x for every NEVR, also without a release.", "quantifier": "all component strings", "why_tests_cant": "ambiguous dashes and colons; universal over strings", "anchors": ["specfile/utils.py:EVR.from_string", "specfile/utils.py:NEVR.from_string", "specfile/utils.py:NEVRA.from_string"]}
{"id": "C174", "title": "Entries without content are kept", "statement": "An entry added to a changelog is an entry of the changelog when it is read again, even if it has no content.", "quantifier": "all changelogs, all entries", "why_tests_cant": "universal over changelogs", "anchors": ["specfile/changelog.py:Changelog.parse", "specfile/changelog.py:ChangelogEntry.assemble"]}
{"id": "C175", "title": "What adding a source or a patch does to the file", "statement": "After a source or patch is inserted through sources() or patches(), or by add_patch(), the file has one line more, a tag with the new location; below it source tags may have new numbers; and unless that line lies in a macro definition, reading the file again shows the locations with the new one among them, the same other tags and the same macro definitions.", "quantifier": "all files without peculiarities whose source tags are written on one line each, all locations that can be written on a line, all indices, all numbers", "why_tests_cant": "universal over files; positions, numbers, %endif lines and macro definitions interact", "anchors": ["specfile/specfile.py:Specfile.sources", "specfile/specfile.py:Specfile.patches", "specfile/sources.py:Sources.insert", "specfile/sources.py:Sources.insert_numbered", "specfile/specfile.py:Specfile.add_patch"]}
{"id": "C176", "title": "What setting the location of a source does to the file", "statement": "After the location of a source is set through sources(), only the value on its line is different; reading the file again shows the new location, the same numbers, the same other tags and the same macro definitions.", "quantifier": "all such files, all sources that are tags, all locations that can be written on a line", "why_tests_cant": "universal over files", "anchors": ["specfile/specfile.py:Specfile.sources", "specfile/sources.py:Sources.__setitem__", "specfile/sources.py:TagSource.location"]}
{"id": "C177", "title": "New sources leave macro definitions alone", "statement": "Inserting a source does not change any macro definition of the file.", "quantifier": "all tidy files", "why_tests_cant": "universal over files", "anchors": ["specfile/sources.py:Sources.insert", "specfile/tags.py:Tags.insert"]}
{"id": "C178", "title": "Reading sources or patches does not change the file", "statement": "Entering and leaving sources() or patches() leaves every line of the file as it is, even if they cannot be read.", "quantifier": "all tidy files, all expansions", "why_tests_cant": "universal over files", "anchors": ["specfile/specfile.py:Specfile.sources", "specfile/specfile.py:Specfile.patches"]}
{"id": "C179", "title": "List sections are found whatever the case of their names", "statement": "The entries of every %sourcelist section are among the sources, in whatever case its name is written.", "quantifier": "all files", "why_tests_cant": "universal over files", "anchors": ["specfile/specfile.py:Specfile.sources"]}
{"id": "C180", "title": "What deleting a source does to the file", "statement": "After a source or patch that is a tag is deleted through sources() or patches(), by index or by number, its line and the comments right above it are gone, the empty lines around them have become one, and nothing else is different; unless a macro definition was among these lines, reading the file again shows the other locations in order, the same other tags and the same macro definitions.", "quantifier": "all files without peculiarities whose source tags are written on one line each, all sources that are tags", "why_tests_cant": "universal over files; comments, empty lines, sections and macro definitions interact", "anchors": ["specfile/specfile.py:Specfile.sources", "specfile/sources.py:Sources.__delitem__", "specfile/sources.py:Sources.remove_numbered", "specfile/tags.py:Tags.delete"]}
{"id": "C181", "title": "What adding a patch with a comment does to the file", "statement": "add_patch() with a comment puts the lines of the comment, each behind \"# \", right above the line of the new patch; otherwise it does what C175 says, if no line of the comment is empty, ends in white space or mentions \"global\" or \"define\".", "quantifier": "all files without peculiarities whose patch tags are written on one line each, all comments, all locations, all numbers", "why_tests_cant": "universal over files and comments", "anchors": ["specfile/specfile.py:Specfile.add_patch"]}
{"id": "C182", "title": "Deleting a source leaves macro definitions alone", "statement": "Deleting a source does not change or delete any macro definition of the file.", "quantifier": "all tidy files", "why_tests_cant": "universal over files", "anchors": ["specfile/sources.py:Sources.__delitem__", "specfile/tags.py:Comments.parse"]}
{"id": "C183", "title": "Comments of patches are not read as macro definitions", "statement": "Adding a patch does not add or change any macro definition of the file, whatever its comment.", "quantifier": "all tidy files, all comments", "why_tests_cant": "universal over files and comments", "anchors": ["specfile/specfile.py:Specfile.add_patch", "specfile/macro_definitions.py:MacroDefinitions._parse"]}
{"id": "C184", "title": "What adding lines to sections does to the file", "statement": "After lines of text are put into the contents of sections (as with `with spec.sections() as s: s.build.append(...)`), reading the file again shows exactly these sections with these contents, the same macro definitions and the same tags, whatever macros expand to.", "quantifier": "all files without peculiarities, all positions in all sections but the preamble outside macro definitions, all lines that are no section headers and do not end in white space or mention \"global\" or \"define\"", "why_tests_cant": "universal over files, positions and lines; sections are found again by a scan in which macro definitions interfere", "anchors": ["specfile/specfile.py:Specfile.sections", "specfile/sections.py:Sections.parse", "specfile/sections.py:Sections.get_raw_data"]}
{"id": "C185", "title": "What adding a changelog entry does to the file", "statement": "After add_changelog_entry() the file has the sections it had, the changelogs written by hand with an entry more; reading it again shows these sections, the same macro definitions and tags, and the new entry with exactly the given lines as the newest one of each such changelog, above the older ones, which are as they were.", "quantifier": "all files without peculiarities, all entries whose lines are text and that do not end in a blank line, all dates, authors and EVRs", "why_tests_cant": "universal over files and entries; composes parsing of sections, of the changelog and writing both", "anchors": ["specfile/specfile.py:Specfile.add_changelog_entry", "specfile/changelog.py:Changelog.parse", "specfile/sections.py:Sections.parse"]}
{"id": "C186", "title": "Lines of a changelog entry stay in the changelog", "statement": "After add_changelog_entry(), the file has the sections it had, whatever the lines of the entry.", "quantifier": "all files without peculiarities, all entries", "why_tests_cant": "universal over entries", "anchors": ["specfile/specfile.py:Specfile.add_changelog_entry"]}
{"id": "C187", "title": "What editing sections does to the file", "statement": "After the contents of sections are edited, sections are removed and sections are added, reading the file again shows exactly these sections with these contents, the same macro definitions and the same tags, whatever macros expand to.", "quantifier": "all files without peculiarities, all edits of contents that remove lines and add lines that are no section headers, do not end in white space and do not mention \"global\" or \"define\", all removed sections and all added ones that consist of such lines, outside macro definitions and below the first section", "why_tests_cant": "universal over files and edits; sections are found again by a scan in which macro definitions interfere", "anchors": ["specfile/specfile.py:Specfile.sections", "specfile/sections.py:Sections.parse", "specfile/sections.py:Sections.get_raw_data"]}
{"id": "C188", "title": "What edits through views of sections do to the file", "statement": "After a change through sections(), changelog() or prep(), the file that is written is one from which exactly the changed section is read with its new content; the other sections, the macro definitions and the tags are as they were, and opening the view again shows what was written.", "quantifier": "all files without peculiarities, all changes as in C187, both with and without autosave, all macro expansions", "why_tests_cant": "universal over files, changes and expansions; composes views, sections and their contents", "anchors": ["specfile/specfile.py:Specfile.sections", "specfile/specfile.py:Specfile.changelog", "specfile/specfile.py:Specfile.prep", "specfile/context_management.py:ContextManager"]}
{"id": "C189", "title": "What adding and removing patch macros does to the file", "statement": "After add_patch_macro() on prep() the file has one line more, in %prep; after remove_patch_macro() it has one line less; reading it again shows %prep with this change, and the same other sections, macro definitions and tags.", "quantifier": "all files without peculiarities with a %prep of ordinary lines, all new macros and all numbers; removal of other macros than the first (see C85)", "why_tests_cant": "universal over files and macros", "anchors": ["specfile/prep.py:Prep.add_patch_macro", "specfile/prep.py:Prep.remove_patch_macro", "specfile/specfile.py:Specfile.prep"]}
{"id": "C190", "title": "Added sections are read again", "statement": "A section that is added at the end of the list of sections is among the sections that are read from the file that is written.", "quantifier": "all files without peculiarities, all plain sections", "why_tests_cant": "universal over files and sections", "anchors": ["specfile/sections.py:Sections.get_raw_data", "specfile/sections.py:Sections.parse"]}
{"id": "C191", "title": "Values of options are read back", "statement": "A text assigned to an option that takes an argument is the value the option has afterwards.", "quantifier": "all option strings, all options with an argument, all texts", "why_tests_cant": "universal over texts and option strings", "anchors": ["specfile/options.py:Options.__setattr__", "specfile/options.py:Options._find_option"]}
{"id": "C192", "title": "Options as a mapping", "statement": "Iterating over options gives the known options that occur on the command line, in the order of the option string; len(options) is their number; options[\"x\"] is options.x.", "quantifier": "all command lines, all option strings (for len(): without repeated letters and for any tokens)", "why_tests_cant": "universal over command lines and option strings", "anchors": ["specfile/options.py:Options.__len__", "specfile/options.py:Options.__iter__", "specfile/options.py:Options.__getitem__"]}
{"id": "C193", "title": "Membership agrees with iteration", "statement": "\"x\" in options holds exactly if x is listed by iterating over options, and options.get(\"x\", default) is the default otherwise.", "quantifier": "all command lines, all options", "why_tests_cant": "universal over command lines", "anchors": ["specfile/options.py:Options.__getitem__", "specfile/options.py:Options.__iter__"]}
{"id": "C194", "title": "Names that are no options are not found", "statement": "Looking up a name that is no option raises KeyError, so that `in` is False and get() gives the default.", "quantifier": "all option strings, all names", "why_tests_cant": "universal over names and option strings", "anchors": ["specfile/options.py:Options.__getitem__", "specfile/options.py:Options._valid_option", "specfile/options.py:Options._requires_argument"]}
{"id": "C195", "title": "Assigning the positional arguments", "statement": "After options.positional = values the positional arguments are these values and every option has the value it had.", "quantifier": "all command lines, all lists of values that do not start with a dash", "why_tests_cant": "universal over command lines and lists of values", "anchors": ["specfile/options.py:Options.positional", "specfile/options.py:Positionals.insert", "specfile/options.py:Positionals.__delitem__"]}
{"id": "C196", "title": "Extending the positional arguments in place", "statement": "After options.positional += values the positional arguments are the ones from before followed by these values.", "quantifier": "all command lines, all lists of values", "why_tests_cant": "universal over command lines and lists of values", "anchors": ["specfile/options.py:Options.positional"]}
{"id": "C197", "title": "Clearing options", "statement": "options.clear() ends, and afterwards no known option is on the command line, the positional arguments and the unknown options are as before.", "quantifier": "all command lines whose values can be read", "why_tests_cant": "termination and result for every command line, although deleting a flag removes the white space first (C52)", "anchors": ["specfile/options.py:Options.__delattr__", "specfile/options.py:Options.__iter__"]}
{"id": "C198", "title": "Comments behave like a list of texts", "statement": "append(), insert(), extend(), item assignment, index() and `in` with texts act on the texts of the comments as on a list; the lines above the comments stay as they are; what is written is read as the same comments again.", "quantifier": "all comments that are read from lines, all texts without line breaks that do not start with white space, all indices", "why_tests_cant": "universal over comments, texts and indices", "anchors": ["specfile/tags.py:Comments.append", "specfile/tags.py:Comments.insert", "specfile/tags.py:Comments.extend", "specfile/tags.py:Comments.__setitem__", "specfile/tags.py:Comments.index", "specfile/tags.py:Comments.__contains__", "specfile/tags.py:Comments.parse", "specfile/tags.py:Comments.get_raw_data"]}
{"id": "C199", "title": "Assigning to a slice of comments", "statement": "comments[i:j] = texts replaces these comments by the texts, as for a list.", "quantifier": "all comments, slices and lists of texts", "why_tests_cant": "universal over slices and lengths", "anchors": ["specfile/tags.py:Comments.__setitem__"]}
{"id": "C200", "title": "Adding texts in place to comments", "statement": "After comments += [text] the tag has one comment more, with this text.", "quantifier": "all comments and texts", "why_tests_cant": "universal over comments and texts", "anchors": ["specfile/tags.py:Comments.extend", "specfile/tags.py:Comments.get_raw_data"]}
{"id": "C201", "title": "Extending comments ends", "statement": "comments.extend(other) ends for any comments, also for other = comments.", "quantifier": "all comments", "why_tests_cant": "termination", "anchors": ["specfile/tags.py:Comments.extend"]}
{"id": "C202", "title": "Headers of new sections", "statement": "The header of a section made of a name and options has the name, white space and the options.", "quantifier": "all names and options", "why_tests_cant": "universal over options", "anchors": ["specfile/sections.py:Section.id", "specfile/sections.py:Section.__init__", "specfile/options.py:Options.__len__"]}
{"id": "C203", "title": "Copies of lists", "statement": "Changing a copy of a list of tags, of macro definitions or of %prep macros leaves the list it was copied from unchanged.", "quantifier": "all lists of tags and macro definitions and all positions", "why_tests_cant": "universal over lists and positions", "anchors": ["specfile/tags.py:Tags.copy", "specfile/tags.py:Tags.__delitem__", "specfile/macro_definitions.py:MacroDefinitions.copy", "specfile/macro_definitions.py:MacroDefinitions.__delitem__", "specfile/prep.py:PrepMacros.copy"]}
{"id": "C204", "title": "Removing a section", "statement": "sections.remove(section) removes that section, and sections.index(section) is its index.", "quantifier": "all lists of sections", "why_tests_cant": "universal over sections", "anchors": ["specfile/sections.py:Section", "specfile/sections.py:Sections", "specfile/utils.py:UserList"]}
{"id": "C205", "title": "pop() and remove() keep the lines above an item", "statement": "pop() and remove() of tags, macro definitions and commands of %prep remove the item and, as del does, leave the lines above it in place.", "quantifier": "all lists, items and indices", "why_tests_cant": "universal over lists and indices", "anchors": ["specfile/tags.py:Tags", "specfile/macro_definitions.py:MacroDefinitions", "specfile/prep.py:PrepMacros", "specfile/changelog.py:Changelog", "specfile/utils.py:UserList"]}
{"id": "C206", "title": "Sums of lists", "statement": "The sum of a list of macro definitions or a changelog and a list of items is written with the lines of both.", "quantifier": "all files, changelogs and lists of items", "why_tests_cant": "universal over files", "anchors": ["specfile/macro_definitions.py:MacroDefinitions.__init__", "specfile/changelog.py:Changelog.__init__", "specfile/utils.py:UserList"]}
{"id": "C207", "title": "Equal objects are written the same", "statement": "Two spec files, lists, tags, macro definitions or changelog entries that compare equal are written the same.", "quantifier": "all pairs of objects", "why_tests_cant": "universal over pairs of objects", "anchors": ["specfile/specfile.py:Specfile.__eq__", "specfile/tags.py:Tag.__eq__", "specfile/macro_definitions.py:MacroDefinition.__eq__", "specfile/changelog.py:ChangelogEntry.__eq__", "specfile/utils.py:UserList"]}
{"id": "C208", "title": "Saving changes only the bytes that were edited", "statement": "If a spec file is opened, changed and saved, the bytes of the file change only where the text was changed: setting a tag or the release, or bumping the release, replaces the bytes of one value; reading changes none. Bytes that are not valid UTF-8 stay.", "quantifier": "all files whose line breaks are line feeds, valid UTF-8 or not, with and without a line feed at the end; all values", "why_tests_cant": "universal over byte strings and edits", "anchors": ["specfile/specfile.py:Specfile.__init__", "specfile/specfile.py:Specfile.__exit__", "specfile/specfile.py:Specfile._read_lines", "specfile/specfile.py:Specfile.save", "specfile/specfile.py:Specfile.update_tag", "specfile/specfile.py:Specfile.set_version_and_release"]}
{"id": "C209", "title": "An exception leaves the file as it was", "statement": "If an exception is raised between opening and closing a spec file (`with Specfile(path) as spec:`), the file on disk stays as it was.", "quantifier": "all files and all blocks", "why_tests_cant": "universal over exceptions and histories of edits", "anchors": ["specfile/specfile.py:Specfile.__exit__", "specfile/specfile.py:Specfile.save", "specfile/specfile.py:Specfile.set_version_and_release"]}
{"id": "C210", "title": "Sources as a sequence: pop, clear, extend", "statement": "`sources.pop(i)` returns the source with that index (from the end if negative) and removes only that one; `sources.clear()` ends and removes all sources; `sources.extend(locations)` adds all locations at the end, in order, or none. Tags that are no sources stay as they are.", "quantifier": "all spec files with sources in tags and list sections, all indices, all lists of locations", "why_tests_cant": "induction over the rounds of loops that delete and insert with renumbering", "anchors": ["specfile/sources.py:Sources.insert", "specfile/sources.py:Sources.__delitem__", "specfile/sources.py:Sources.__getitem__", "specfile/sources.py:Sources._get_items"]}
{"id": "C211", "title": "Sources as a sequence: index, reverse", "statement": "If a location is in `sources`, `sources.index(location)` finds it; `sources.reverse()` leaves a spec file that can be written, with the locations in reverse order.", "quantifier": "all lists of locations", "why_tests_cant": "universal over lists; non-termination of writing", "anchors": ["specfile/sources.py:Sources.__setitem__", "specfile/sources.py:Sources.__contains__", "specfile/sources.py:TagSource.__eq__", "specfile/sources.py:TagSource.__repr__"]}
{"id": "C212", "title": "A file holds what was saved to it last", "statement": "Whatever is done with any number of `Specfile` objects and by other programs, in any order: a file changes only when an object whose `path` is that file is saved (or a view is left with `autosave`), and then it holds the text that object has.", "quantifier": "all histories of opening, editing, saving, reloading, changing path and autosave, and of writes by other programs", "why_tests_cant": "universal over unbounded histories and interleavings", "anchors": ["specfile/specfile.py:Specfile.__init__", "specfile/specfile.py:Specfile.save", "specfile/specfile.py:Specfile.reload", "specfile/specfile.py:Specfile.path", "specfile/specfile.py:Specfile.lines"]}
{"id": "C213", "title": "An object keeps its text", "statement": "The text of a `Specfile` object changes only through its own edits and `reload()`, never because of other objects or a change of the file.", "quantifier": "all histories and interleavings", "why_tests_cant": "universal over unbounded histories and interleavings", "anchors": ["specfile/specfile.py:Specfile.__init__", "specfile/specfile.py:Specfile.reload", "specfile/specfile.py:Specfile.lines"]}
{"id": "C214", "title": "No change is lost if several objects edit one file", "statement": "If several `Specfile` objects for one path are edited and saved, the file contains the changes of all of them.", "quantifier": "all files, edits and numbers of objects", "why_tests_cant": "universal over schedules", "anchors": ["specfile/specfile.py:Specfile.save", "specfile/specfile.py:Specfile.reload", "specfile/specfile.py:Specfile.__init__"]}
{"id": "C215", "title": "reload() while a view is open", "statement": "After `reload()` the lines are those of the file, and changes made afterwards are saved.", "quantifier": "all histories of nested views, changes, reloads and saves", "why_tests_cant": "universal over unbounded histories", "anchors": ["specfile/specfile.py:Specfile.reload", "specfile/specfile.py:Specfile.lines", "specfile/context_management.py:ContextManager.__call__"]}
{"id": "C216", "title": "Expansion in the context of the spec file", "statement": "`expand()` and `get_active_macros()` answer with the macros of this spec file, whatever other spec files were parsed, copied or dropped before in the process.", "quantifier": "all histories of parsers and parses in a process, all expressions", "why_tests_cant": "universal over unbounded histories of a process-wide cache and macro context", "anchors": ["specfile/specfile.py:Specfile.expand", "specfile/specfile.py:Specfile.get_active_macros", "specfile/spec_parser.py:SpecParser.parse", "specfile/macros.py:Macros.expand"]}
{"id": "C217", "title": "repr() is the expression that was formatted", "statement": "Formatting the text of `repr()` changes white space and commas after the last item only: the formatted text is an expression with the same constants, tuples, lists, dictionaries and calls.", "quantifier": "all expressions of the supported syntax and all thresholds", "why_tests_cant": "universal over nested expressions and line lengths", "anchors": ["specfile/formatter.py:format_expression", "specfile/formatter.py:formatted"]}
{"id": "C218", "title": "repr() does not raise", "statement": "`repr()` of the objects of this library returns a text, whatever the objects inside of it look like.", "quantifier": "all texts and trees that Python's parser may answer with", "why_tests_cant": "universal over expressions", "anchors": ["specfile/formatter.py:format_expression", "specfile/formatter.py:formatted"]}
{"id": "C219", "title": "Representations that are no Python survive formatting", "statement": "Text in angle brackets, such as that of enumerations, stands in the formatted text where it stood before.", "quantifier": "all texts with such a representation", "why_tests_cant": "universal over expressions", "anchors": ["specfile/formatter.py:format_expression"]}
{"id": "C220", "title": "Captured output is complete", "statement": "`capture_stderr()` yields exactly the lines that its block writes to standard error, by RPM or by Python, buffered or not, with nested captures and also if the block raises; nothing written before or after is among them, and nothing of it reaches standard error.", "quantifier": "all blocks of writes, flushes, nested captures and exceptions", "why_tests_cant": "universal over interleavings of buffered and unbuffered writes and nesting", "anchors": ["specfile/context_management.py:capture_stderr", "specfile/macros.py:Macros.dump"]}
{"id": "C221", "title": "Standard error is always restored", "statement": "After `capture_stderr()`, standard error is what it was before, whatever happens.", "quantifier": "all failures and points of interruption", "why_tests_cant": "universal over crash points", "anchors": ["specfile/context_management.py:capture_stderr"]}
{"id": "C222", "title": "Deep copies are equal and independent", "statement": "`copy.deepcopy()` of a spec file or any part of it always finishes, also with cycles; everything that can be read of the copy equals the original, except for the result of the last parsing, which the copy does not have; objects that are one in the original, and only those, are one in the copy; and no change of the one can be seen in the other, except through the spec file that tags and sourcelist entries refer to as their context.", "quantifier": "all object graphs, values and chains of attributes, and all later changes", "why_tests_cant": "universal over graphs of objects with sharing and cycles, and over all later mutations", "anchors": ["specfile/tags.py:Tag.__deepcopy__", "specfile/sourcelist.py:SourcelistEntry.__deepcopy__", "specfile/spec_parser.py:SpecParser.__deepcopy__"]}
{"id": "C223", "title": "A copy keeps the context of macro expansion", "statement": "Everything in a deep copy is expanded in the context of one and the same spec file, as in the original.", "quantifier": "all object graphs in which there are tags, sourcelist entries or collections of sources", "why_tests_cant": "universal over object graphs", "anchors": ["specfile/tags.py:Tag.__deepcopy__", "specfile/sourcelist.py:SourcelistEntry.__deepcopy__", "specfile/spec_parser.py:SpecParser.__deepcopy__", "specfile/sources.py:Sources"]}
{"id": "C224", "title": "Slices pick what they pick of lists", "statement": "`c[start:stop:step]` has the items that Python picks for these bounds, and `del c[start:stop:step]` with a positive step deletes these and nothing else, for tags, macro definitions, %prep macros, changelogs, sources and positional arguments; a step of zero is a `ValueError`.", "quantifier": "all collections and all slices, with bounds of either sign or none", "why_tests_cant": "universal over collections, bounds and steps", "anchors": ["specfile/tags.py:Tags.__delitem__", "specfile/macro_definitions.py:MacroDefinitions.__delitem__", "specfile/prep.py:PrepMacros.__delitem__", "specfile/changelog.py:Changelog.__delitem__", "specfile/sources.py:Sources.__delitem__", "specfile/options.py:Positionals.__delitem__"]}
{"id": "C225", "title": "Deleting slices with a negative step", "statement": "`del c[start:stop:-k]` deletes the items of `c[start:stop:-k]` and nothing else.", "quantifier": "all collections and slices with a negative step", "why_tests_cant": "universal over collections, bounds and steps", "anchors": ["specfile/tags.py:Tags.__delitem__", "specfile/macro_definitions.py:MacroDefinitions.__delitem__", "specfile/prep.py:PrepMacros.__delitem__", "specfile/changelog.py:Changelog.__delitem__", "specfile/sources.py:Sources.__delitem__", "specfile/options.py:Positionals.__delitem__"]}
{"id": "C226", "title": "Assigning to a slice", "statement": "After `c[s] = values`, `c[s]` has these values and everything else is as before, or there is an exception and nothing has changed.", "quantifier": "all collections of sources and positional arguments, all slices and all lists of values", "why_tests_cant": "universal over collections, slices and values", "anchors": ["specfile/sources.py:Sources.__setitem__", "specfile/options.py:Positionals.__setitem__"]}
{"id": "C227", "title": "Remote sources", "statement": "A source is remote if and only if its expanded location is a URL with a scheme and a host; file names, paths, `file:///` URLs and locations without `//` are local.", "quantifier": "all locations", "why_tests_cant": "universal over strings", "anchors": ["specfile/sources.py:Source.remote"]}
{"id": "C228", "title": "Every source can be asked whether it is remote", "statement": "`remote` is a boolean for every source and never raises.", "quantifier": "all locations", "why_tests_cant": "universal over strings", "anchors": ["specfile/sources.py:Source.remote"]}
{"id": "C229", "title": "Dumping macros", "statement": "`Macros.dump()` returns exactly the macros that RPM lists, with all characters of their bodies, and none of the listing appears on standard error, whatever has been printed before.", "quantifier": "all sets of macros, states of standard error and ways of writing", "why_tests_cant": "universal over texts and states of descriptors", "anchors": ["specfile/macros.py:Macros.dump", "specfile/context_management.py:capture_stderr"]}
{"id": "C230", "title": "Macros that are not UTF-8 can be dumped", "statement": "`Macros.dump()` does not raise, whatever the bodies of macros are.", "quantifier": "all macros", "why_tests_cant": "universal over byte strings", "anchors": ["specfile/macros.py:Macros.dump", "specfile/context_management.py:capture_stderr"]}
{"id": "C231", "title": "The parsed spec file and whether it is tainted", "statement": "`rpm_spec` and `tainted` are what a real parse of the present content with the present source directory, macros and `force_parse` gives, or raise what it raises, whatever was parsed, copied or set before.", "quantifier": "all histories of spec files in a process", "why_tests_cant": "universal over histories and identities of objects", "anchors": ["specfile/specfile.py:Specfile.rpm_spec", "specfile/specfile.py:Specfile.tainted", "specfile/specfile.py:Specfile.sourcedir", "specfile/specfile.py:Specfile.macros", "specfile/specfile.py:Specfile.force_parse"]}
{"id": "C232", "title": "Equal %prep macros are the same", "statement": "Options compare equal exactly if every option occurs in both with the same value; %prep macros that compare equal stand for the same thing and are written the same.", "quantifier": "all command lines and macros", "why_tests_cant": "universal over pairs of command lines", "anchors": ["specfile/options.py:Options", "specfile/prep.py:PrepMacro.__eq__", "specfile/prep.py:Prep.__eq__"]}
{"id": "C233", "title": "Removing a %prep macro removes that macro", "statement": "`prep.macros.remove(m)` for a macro of the list removes it and no other.", "quantifier": "all lists of macros", "why_tests_cant": "universal over lists", "anchors": ["specfile/prep.py:PrepMacros", "specfile/prep.py:PrepMacro.__eq__"]}
{"id": "C234", "title": "Equal lists of sources have the same sources", "statement": "Lists of sources or patches that compare equal have the same numbers and locations.", "quantifier": "all pairs of lists of sources or patches", "why_tests_cant": "universal over pairs of spec files", "anchors": ["specfile/sources.py:Sources.__eq__", "specfile/sourcelist.py:SourcelistEntry.__eq__"]}
{"id": "C235", "title": "Adding a changelog entry changes nothing else in the file", "statement": "When a spec file with one changelog written by hand is opened, an entry is added and the file is saved, the bytes of the header, of the lines of the entry and of an empty line are inserted in front of the newest entry, and all other bytes stay; without such a changelog no byte changes.", "quantifier": "all files (valid UTF-8 or not), entries, authors, dates and expansions", "why_tests_cant": "universal over the bytes of files", "anchors": ["specfile/specfile.py:Specfile.add_changelog_entry", "specfile/specfile.py:Specfile.save", "specfile/sections.py:Section.get_raw_data"]}
{"id": "C236", "title": "Adding and deleting sources changes nothing else in the file", "statement": "When a spec file is opened, a source given by a tag is deleted and the file is saved, the bytes of its line, of the comments right above it and of the empty lines around them go away (one line feed stays if there were empty lines), and all other bytes stay; when a source or a patch is added, the bytes of its line and of its comments are inserted, and besides them only the lines of sources that get new numbers change.", "quantifier": "all files (valid UTF-8 or not) whose preamble is regular, all positions, locations, numbers and comments", "why_tests_cant": "universal over the bytes of files", "anchors": ["specfile/specfile.py:Specfile.add_patch", "specfile/sources.py:Sources.insert", "specfile/sources.py:Sources.__delitem__", "specfile/specfile.py:Specfile.save"]}
{"id": "C237", "title": "The text of a changelog tells its entries", "statement": "Reading the lines of str(changelog) as a changelog gives the same headers and contents in the same order; if the entries are separated by one empty line, str(changelog) is the text of the section.", "quantifier": "all changelogs that are read from a section, and all whose entries can be told apart", "why_tests_cant": "universal over sections", "anchors": ["specfile/changelog.py:ChangelogEntry.__str__", "specfile/changelog.py:Changelog.__str__", "specfile/changelog.py:Changelog.parse"]}
{"id": "C238", "title": "The text of a changelog made by hand", "statement": "Reading the lines of str(changelog) gives the same entries for every changelog whose headers start with an asterisk.", "quantifier": "all changelogs", "why_tests_cant": "universal over changelogs; the theorem is a counterexample found while proving the general claim", "anchors": ["specfile/changelog.py:ChangelogEntry.__str__", "specfile/changelog.py:Changelog.__str__", "specfile/changelog.py:Changelog.parse"]}
{"id": "C239", "title": "The lines that make a macro definition", "statement": "When macro definitions are read from lines, some of which are in false branches of conditions, every line of the form '%global name body' or '%define name body' (with white space before it, options after the name, or commented out by '#' or '%dnl') that does not belong to the definition above gives a definition, and no other line does; the definition is valid if that line is not in a false branch; it takes the following lines as long as its body has open brackets or ends in a backslash and there are lines; a definition that is commented out is one line; its body is the text of its lines after the name, without white space at the end; all other lines are kept in place.", "quantifier": "all lists of lines with flags", "why_tests_cant": "universal over lines; definitions of any number of lines", "anchors": ["specfile/macro_definitions.py:MacroDefinitions._parse"]}
{"id": "C240", "title": "Definitions as attributes", "statement": "`name in definitions` says whether there is a definition with that name; if so, `definitions.name`, `definitions.get(name)`, `definitions.name = body` and `del definitions.name` are about the first valid one, or the first if none is valid; otherwise they are about an ordinary attribute.  `tags.get(name)` and `tags.get(name, position)` give the tag with that name, respectively the one at that position.", "quantifier": "all collections, names and positions", "why_tests_cant": "universal over collections with several definitions of a name", "anchors": ["specfile/macro_definitions.py:MacroDefinitions.__getattr__", "specfile/macro_definitions.py:MacroDefinitions.__setattr__", "specfile/macro_definitions.py:MacroDefinitions.__delattr__", "specfile/macro_definitions.py:MacroDefinitions.get", "specfile/tags.py:Tags.get"]}
{"id": "C241", "title": "Negated lists of architectures after %elif", "statement": "\"%elifnarch\" and \"%elifnos\", which are taken as condition lines, hold if the architecture or operating system of the build is none of those listed.", "quantifier": "all lists and platforms, with any macro expansion that has no effects", "why_tests_cant": "universal over expressions", "anchors": ["specfile/conditions.py:resolve_expression", "specfile/conditions.py:process_conditions"]}
{"id": "C242", "title": "Sections that are shell scripts", "statement": "is_script of a section says whether the content of the section is a shell script.", "quantifier": "all specs that are read, all options of headers", "why_tests_cant": "universal over texts and over the options of headers", "anchors": ["specfile/sections.py:Section.is_script", "specfile/constants.py:SCRIPT_SECTIONS", "specfile/constants.py:SIMPLE_SCRIPT_SECTIONS"]}
{"id": "C243", "title": "Counting sources", "statement": "sources.count(location) is the number of sources with that location, is positive exactly if the location is in the sources, grows by one when that location is inserted and is zero once it is removed; the counts of other locations stay.", "quantifier": "all containers of sources, in tags and lists, all locations", "why_tests_cant": "universal over containers and histories", "anchors": ["specfile/sources.py:Sources.count", "specfile/sources.py:Sources.insert", "specfile/sources.py:Sources.remove"]}
{"id": "C244", "title": "Copies and slices of sections", "statement": "section.copy() equals the section, and changing either leaves the other unchanged; section[i:j:k] has the header of the section and the lines that the slice picks, and is independent of it.", "quantifier": "all sections, all histories of changes of names, lines and options", "why_tests_cant": "universal over histories of changes to objects that share parts", "anchors": ["specfile/sections.py:Section.copy", "specfile/sections.py:Section.__getitem__"]}
{"id": "C245", "title": "Copies of lists of sections", "statement": "Changing a copy of the list of sections leaves the list it was copied from unchanged.", "quantifier": "all lists of different sections, all identifiers and lines", "why_tests_cant": "universal over states with shared objects", "anchors": ["specfile/sections.py:Sections.copy", "specfile/sections.py:Sections.__setattr__", "specfile/sections.py:Sections.__delattr__"]}
{"id": "C246", "title": "Sums and multiples of sections", "statement": "section + lines has the lines of both, and section * n has the lines n times, as for lists.", "quantifier": "all sections, lines and numbers", "why_tests_cant": "universal over sections and lines", "anchors": ["specfile/sections.py:Section.__init__"]}
{"id": "C247", "title": "Comparing positional arguments", "statement": "Positional arguments are equal exactly if there are as many of them and each is the same number or the same text as its counterpart.", "quantifier": "all options with any tokens", "why_tests_cant": "universal over token lists", "anchors": ["specfile/options.py:Positionals.__eq__"]}
{"id": "C248", "title": "Identifiers of sections", "statement": "Reading the identifiers of sections changes nothing, and a section whose options are put back as they were is as it was.", "quantifier": "all sections, options and values", "why_tests_cant": "universal over histories of reading and changing options", "anchors": ["specfile/sections.py:Section.id", "specfile/sections.py:Section.normalized_id"]}
{"id": "C249", "title": "Definitions are switched once", "statement": "When a value is updated, a condition on a macro whose definitions are to be commented out or uncommented already does not switch them again: the value requested takes its place and nothing else changes.", "quantifier": "all values that are such conditions, all requested values without newlines, all lists of macro definitions and tags, all results of expansion", "why_tests_cant": "universal over values, definitions and results of macro expansion; nested updates decide in what order definitions are switched", "anchors": ["specfile/specfile.py:Specfile.update_value", "specfile/value_parser.py:ValueParser.construct_regex"]}
{"id": "C250", "title": "Values of several lines", "statement": "The value of a tag goes on on the lines below until each %{ and each %( is closed; the tags found are exactly those written that way, and lines have one reading.", "quantifier": "all lines without white space at their ends, all results of macro expansion", "why_tests_cant": "universal over lines and values; the number of lines of a value is not bounded", "anchors": ["specfile/tags.py:Tags.parse", "specfile/utils.py:count_brackets"]}
{"id": "C251", "title": "Quoting of values in options", "statement": "A new option or an appended positional argument is put at the end of the text behind a space; its value is in double quotes, with double quotes escaped, if it has blanks, and otherwise bare, with quotes and white space escaped. The text in front of it stays.", "quantifier": "all command lines and values", "why_tests_cant": "universal over texts and values", "anchors": ["specfile/options.py:Options.__setattr__", "specfile/options.py:Positionals.insert", "specfile/options.py:Token.__str__"]}
{"id": "C252", "title": "Dummy sources at the end", "statement": "If a block with dummy sources ends without an exception, each file made for it was still there at the end of the block and is not there any more: a file that is deleted meanwhile makes the end of the block raise.", "quantifier": "all sets of sources, all blocks, all file systems with their faults", "why_tests_cant": "universal over blocks and over faults of the file system", "anchors": ["specfile/spec_parser.py:SpecParser._make_dummy_sources"]}
{"id": "C253", "title": "The closest definition", "statement": "When a value is updated through the macros and tags it refers to, each reference goes to the closest definition or tag of that name in front of it; the definitions and tags of the file that are not protected are considered each once, in the order of their positions.", "quantifier": "all spec files, values, positions and names", "why_tests_cant": "universal over files with any number of definitions of the same name", "anchors": ["specfile/specfile.py:Specfile.update_value"]}
{"id": "C254", "title": "Options of sections", "statement": "A section that is made, or read from a spec file, takes the options RPM knows for its name (whatever the case of the name): n and l for description, n and f for files, n for package and sepolicy, n, f, p, P, e and q for scriptlets, and none for the others.", "quantifier": "all names of sections and all spec files", "why_tests_cant": "universal over spec files", "anchors": ["specfile/sections.py:Section.__init__", "specfile/sections.py:Sections.parse", "specfile/constants.py:SECTION_OPTIONS"]}
{"id": "C255", "title": "Numbers in options", "statement": "An option that is set to a number has that number when it is read: it is written as the digits of the number, after a sign if it is negative.", "quantifier": "all command lines, options that take an argument and integers", "why_tests_cant": "universal over integers and command lines", "anchors": ["specfile/options.py:Options.__setattr__", "specfile/options.py:Options.__getattr__"]}
{"id": "C256", "title": "A release that is missing or cannot be read", "statement": "Without a release tag, reading, setting and bumping the release raise TypeError and change nothing; if the release has a macro that is not closed, bumping it raises the error about the macro and changes nothing, not even a macro for the base of the release.", "quantifier": "all spec files and states of macro expansion", "why_tests_cant": "universal over spec files", "anchors": ["specfile/specfile.py:Specfile.release", "specfile/specfile.py:Specfile.bump_release"]}
