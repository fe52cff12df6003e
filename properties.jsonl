{"id": "C01", "title": "Repertoire behaves as a finite map from code point sequences to entries", "statement": "After any history of adding/deleting code points, sequences, ranges and variants (successful or failing), every code point sequence is held at most once; looking one up (membership test, get_char) succeeds exactly when it is present; adding makes exactly that sequence present, deleting makes exactly that sequence absent, and every other entry is untouched; len() is the number of distinct entries and all_repertoire() enumerates each exactly once.", "quantifier": "all finite histories of repertoire operations with arbitrary arguments, all code point sequences looked up afterwards", "why_tests_cant": "Tests exercise a handful of insert/delete interleavings; absence of duplicates or interference after every history needs an invariant.", "anchors": ["lgr/char.py:Repertoire.add_char", "lgr/char.py:Repertoire.del_char", "lgr/char.py:Repertoire.get_char", "lgr/char.py:Repertoire.__contains__", "lgr/char.py:Repertoire.__len__", "lgr/char.py:Repertoire.all_repertoire"]}
{"id": "C02", "title": "Failed single-entry operations change nothing", "statement": "When add_cp, del_cp, add_variant or del_variant raises (or del_variant returns False), the LGR is exactly as before the call: repertoire, ranges, tag classes, variant types and references.", "quantifier": "all LGR states, all arguments including force/override flags and validating repertoires, all raised errors", "why_tests_cant": "A test checks one failing call in one state; atomicity must hold on every error path from every state.", "anchors": ["lgr/core.py:LGR.add_cp", "lgr/core.py:LGR.del_cp", "lgr/core.py:LGR.add_variant", "lgr/core.py:LGR.del_variant"]}
{"id": "C03", "title": "Adding a range adds exactly the requested code points", "statement": "When add_range(first,last) succeeds on an LGR, every code point of [first,last] that was kept is now present with the given comment, references, tags and context rules, and no other entry is added, removed or altered; when it raises because of a bad argument, an invalid or already present code point, an undefined or duplicate reference or a duplicate tag, nothing has been changed.", "quantifier": "all LGR states, all first/last, all option combinations", "why_tests_cant": "Range sizes and pre-existing overlaps are unbounded; the code inserts one code point at a time with a TODO about clean-up on error.", "anchors": ["lgr/core.py:LGR.add_range", "lgr/core.py:LGR._insert_list", "lgr/char.py:Repertoire.add_range"]}
{"id": "C04", "title": "Range deletion is all-or-nothing", "statement": "del_range either removes exactly the code points of a previously added range, or raises leaving the repertoire unchanged.", "quantifier": "all histories of operations before the call, including deletion of single code points inside ranges", "why_tests_cant": "Depends on the history that produced the state; unit tests only delete freshly added ranges.", "anchors": ["lgr/char.py:Repertoire.del_range", "lgr/core.py:LGR.del_range", "lgr/core.py:LGR.expand_range"]}
{"id": "C05", "title": "Overlapping ranges are always detected", "statement": "Adding to a repertoire a range that shares a code point with an existing range is refused and leaves the repertoire unchanged.", "quantifier": "all lists of existing ranges, all new ranges", "why_tests_cant": "Overlap has many geometric cases (left, right, inside, containing) times unbounded lists of ranges.", "anchors": ["lgr/char.py:Repertoire._check_range_overlap", "lgr/char.py:Repertoire.add_range"]}
{"id": "C06", "title": "Iteration yields every entry once in code point order", "statement": "Iterating over a repertoire yields entries in non-decreasing order of first code point (shorter first within one first code point), yields every single code point and sequence exactly once, and one representative for each range so that the yielded entries account for exactly the code points present.", "quantifier": "all repertoires reachable by any history", "why_tests_cant": "Iteration skips range members with a running marker; completeness over all histories is not testable by example.", "anchors": ["lgr/char.py:Repertoire.__iter__"]}
{"id": "C07", "title": "Collapsing code points into ranges is exact and maximal", "statement": "collapse_codepoints of a non-empty collection of distinct code points returns ranges which are sorted, pairwise disjoint and non-adjacent, and which cover exactly the given code points; the result does not depend on the input order.", "quantifier": "all non-empty finite collections of code points", "why_tests_cant": "Exactness/maximality quantifies over all sets of integers.", "anchors": ["lgr/utils.py:collapse_codepoints", "lgr/utils.py:format_cp_collapsed"]}
{"id": "C08", "title": "Validated insertion: a code point enters the repertoire only if every check passed", "statement": "add_cp succeeds without force/override only if the code point sequence is non-empty, IDNA-valid, inside the validating repertoire, does not carry both when and not-when, only cites defined references with no repetition, has no repeated tag, no tag on a sequence, and was not yet present; the first failing check in documented order determines the exception. With force only emptiness, IDNA validity and prior presence can make it fail, and undefined references are dropped.", "quantifier": "all LGR states, Unicode property assignments, validating repertoires and arguments", "why_tests_cant": "The product of error conditions is large; priority among simultaneous errors is rarely tested.", "anchors": ["lgr/core.py:LGR.add_cp", "lgr/core.py:LGR._check_convert_cp"]}
{"id": "C09", "title": "Range pre-check reports one accurate status per code point", "statement": "check_range returns, for each code point of [first,last] in order, exactly one status: invalid IDNA property, else not in validating repertoire, else already present, else OK; it never changes the LGR.", "quantifier": "all LGR states, ranges, validating repertoires and Unicode property assignments", "why_tests_cant": "Quantifies over all ranges and all states; combination priority matters.", "anchors": ["lgr/core.py:LGR.check_range"]}
{"id": "C10", "title": "Expanding ranges preserves the repertoire", "statement": "expand_ranges leaves no range, keeps the same set of code points with the same properties and variants, and leaves everything else untouched; it does not raise.", "quantifier": "all LGR states reachable by any history", "why_tests_cant": "Depends on history: ranges metadata and characters can diverge.", "anchors": ["lgr/core.py:LGR.expand_ranges", "lgr/core.py:LGR.expand_range"]}
{"id": "C11", "title": "Tag classes mirror the tags of the repertoire", "statement": "At any time the class associated with a tag contains exactly the code points of the repertoire carrying that tag.", "quantifier": "all histories of LGR edit operations", "why_tests_cant": "Incrementally maintained derived data; must hold after every history.", "anchors": ["lgr/core.py:LGR._add_cp_to_tag_classes", "lgr/core.py:LGR._del_cp_from_tag_classes", "lgr/core.py:LGR.del_tag", "lgr/core.py:LGR.del_range"]}
{"id": "C12", "title": "Reference identifiers are unique, fresh and never overwritten", "statement": "add_reference never replaces an existing reference: with an explicit id it raises if the id exists or is malformed, otherwise it returns a fresh id; automatically chosen ids are the smallest unused integer not below the internal counter; deletion removes exactly the given id, and after any history lookups return the last value stored under the id.", "quantifier": "all histories of add/delete/update reference operations, explicit or automatic ids", "why_tests_cant": "Freshness over every history with mixed explicit and automatic ids is an invariant.", "anchors": ["lgr/metadata.py:ReferenceManager.add_reference", "lgr/metadata.py:ReferenceManager.del_reference", "lgr/metadata.py:ReferenceManager.update_reference"]}
{"id": "C13", "title": "Deleting a reference removes every use of it", "statement": "After LGR.del_reference(id) succeeds no code point or variant cites id and id is undefined; if it raises because id is undefined the LGR is unchanged.", "quantifier": "all LGR states and ids", "why_tests_cant": "Must hold for all repertoires, including those built with force.", "anchors": ["lgr/core.py:LGR.del_reference", "lgr/char.py:Repertoire.del_reference"]}
{"id": "C14", "title": "RFC 7940 test verdicts are sticky and order independent", "statement": "Once a test case has been reported as failed it stays failed whatever is reported later; the final verdict depends only on which tests were reported passed/failed, not on the order or multiplicity of the reports; with a policy the verdict is FAIL iff a policy test was not run or failed with an enforcing policy, WARN iff no FAIL and some failed test has policy WARNING, PASS otherwise.", "quantifier": "all sequences of reports, all policies", "why_tests_cant": "All interleavings of reports from parsing and validation.", "anchors": ["lgr/rfc7940.py:LGRFormatTestResults.add_test_result", "lgr/rfc7940.py:LGRFormatTestResults.get_final_result"]}
{"id": "C15", "title": "Every label gets the disposition of the first triggered action", "statement": "For any label and set of variant types, the disposition is that of the first action (explicit actions first, then default actions) whose rule and variant conditions hold; some action always triggers; adding actions after the triggering one does not change the result.", "quantifier": "all action lists, labels, variant type sets and rule matching behaviours", "why_tests_cant": "Action lists and type sets are unbounded; always-terminating with a verdict is a totality claim.", "anchors": ["lgr/core.py:LGR._apply_actions", "lgr/action.py:Action.apply", "lgr/core.py:DEFAULT_ACTIONS"]}
{"id": "C16", "title": "Eligible labels really are composed of repertoire entries", "statement": "If a label passes the eligibility test it can be cut into consecutive repertoire entries each satisfying its context rule at its position; if it fails, the reported invalid parts are non-empty, and each reported code point belongs to the label and starts no applicable entry at that position.", "quantifier": "all repertoires, labels and rule matching behaviours", "why_tests_cant": "Greedy matching over arbitrary repertoires with sequences and context rules.", "anchors": ["lgr/core.py:LGR._test_preliminary_eligibility", "lgr/core.py:LGR.test_label_eligible"]}
{"id": "C17", "title": "Labels composed of repertoire entries are eligible", "statement": "If a label can be cut into consecutive repertoire entries satisfying their context rules, the eligibility test does not report it as outside the LGR.", "quantifier": "all repertoires, labels and rule matching behaviours", "why_tests_cant": "Completeness of a greedy search needs all repertoires; tests cover hand-picked ones.", "anchors": ["lgr/core.py:LGR._test_preliminary_eligibility"]}
{"id": "C18", "title": "Label partitions are exactly the context-valid segmentations", "statement": "The list of partitions of a label contains exactly the ways to cut it into repertoire entries whose context rules hold in the label, each once; every eligible label has at least one.", "quantifier": "all repertoires, labels and rule matching behaviours", "why_tests_cant": "Exponentially many segmentations; soundness and completeness are universal statements.", "anchors": ["lgr/core.py:LGR._generate_label_partitions"]}
{"id": "C19", "title": "Index labels detect variant collisions", "statement": "The index label of an eligible label is the smallest combination of entry-wise minimal variants over all partitions; for a symmetric and transitive LGR of single code points without context rules, two labels have equal index labels exactly when one is a variant of the other, the index of an index is itself, and it never exceeds the label in code point order.", "quantifier": "all LGRs (in the stated class) and all pairs of labels", "why_tests_cant": "An equivalence over all pairs of labels.", "anchors": ["lgr/core.py:LGR.generate_index_label", "lgr/core.py:LGR._generate_index_label_on_partition"]}
{"id": "C20", "title": "Generated variant labels are sound", "statement": "Every variant label produced for a label arises by cutting the label into repertoire entries and replacing each by itself or one of its variants whose context rule holds, and the reported set of types is exactly the set of types of the used variants; only-variants is reported exactly when all pieces come from variant mappings.", "quantifier": "all repertoires, labels and rule matching behaviours", "why_tests_cant": "Recursive generator with backtracking over arbitrary repertoires.", "anchors": ["lgr/core.py:LGR._generate_label_variants", "lgr/core.py:LGR._get_prefix_list"]}
{"id": "C21", "title": "Variant generation is complete", "statement": "Every label obtained by replacing code points of an eligible label with variants whose context rules hold is produced, apart from the original label itself.", "quantifier": "all repertoires and labels", "why_tests_cant": "Completeness over all combinations.", "anchors": ["lgr/core.py:LGR._generate_label_variants"]}
{"id": "C22", "title": "Label disposition listing: original last and once, no duplicates, no invalid ones", "statement": "compute_label_disposition yields the original label exactly once and last; no label twice; variants disposed invalid only on request; labels longer than 63 code points and labels processed without Unicode data are refused; each yielded disposition is the one of the first triggered action or invalid when ineligible.", "quantifier": "all LGRs, labels up to the protocol limit, option combinations", "why_tests_cant": "Interaction between duplicate suppression, filtering and ordering on arbitrary generated lists.", "anchors": ["lgr/core.py:LGR.compute_label_disposition"]}
{"id": "C23", "title": "The variant number estimate bounds the number of variants", "statement": "estimate_variant_number is at least the number of labels listed by compute_label_disposition, and is exact for LGRs of single code points without context rules and with one mapping per variant.", "quantifier": "all LGRs and labels", "why_tests_cant": "An inequality over all repertoires.", "anchors": ["lgr/core.py:LGR.estimate_variant_number"]}
{"id": "C24", "title": "The symmetry check decides symmetry", "statement": "check_symmetry (ignoring rules) reports success exactly when for every entry A with variant B, B is in the repertoire and has A as variant; with rules it additionally requires matching when/not-when; the result is recorded as RFC 7940 test outcome consistently.", "quantifier": "all LGRs", "why_tests_cant": "Decision-procedure correctness in both directions.", "anchors": ["lgr/validate/symmetry.py:check_symmetry"]}
{"id": "C25", "title": "The transitivity check decides transitivity", "statement": "check_transitivity reports success exactly when all variants are in the LGR and for every A with variant B and B with variant C different from A, C is a variant of A; the verdict recorded for RFC 7940 reporting agrees with the returned one.", "quantifier": "all LGRs", "why_tests_cant": "Decision-procedure correctness in both directions.", "anchors": ["lgr/validate/transitivity.py:check_transitivity"]}
{"id": "C26", "title": "Populating variants yields a symmetric and transitive LGR", "statement": "When populate_variants returns, the LGR is symmetric and transitive (rules aside); it terminates; it never removes a code point or variant mapping and adds only mappings between code points already related through chains of variants.", "quantifier": "all LGRs", "why_tests_cant": "Fixed-point iteration over arbitrary variant graphs, termination included.", "anchors": ["lgr/populate/__init__.py:populate_lgr", "lgr/populate/__init__.py:_add_symmetry", "lgr/populate/__init__.py:_add_transitivity"]}
{"id": "C27", "title": "Variant sets are the variant-connected components", "statement": "get_variant_sets returns, for a symmetric LGR, exactly the connected components of size at least two of the variant relation, sorted and pairwise disjoint; in general each returned set is the set of entries reachable from some entry through variants.", "quantifier": "all LGRs", "why_tests_cant": "Graph reachability over unbounded graphs.", "anchors": ["lgr/char.py:Repertoire.get_variant_sets"]}
{"id": "C28", "title": "LGR union and intersection are set union and intersection", "statement": "The union of two LGRs contains exactly the code points of either, with the variants of either; the intersection contains exactly the common code points with the common variants; inputs are unchanged apart from range expansion.", "quantifier": "all pairs of LGRs", "why_tests_cant": "Algebraic laws over all pairs.", "anchors": ["lgr/tools/compare/union.py:union_lgrs", "lgr/tools/compare/intersect.py:intersect_lgrs"]}
{"id": "C29", "title": "Mixed-script filtering only keeps labels within permitted script sets", "statement": "With mixed-script hiding, every generated variant label keeps all replaced pieces inside the permitted scripts of the original label, or all inside the permitted scripts of one other script; the permitted set computation is monotone and always contains its input.", "quantifier": "all labels, repertoires and script assignments", "why_tests_cant": "Ranges over all script assignments and labels.", "anchors": ["lgr/mixed_scripts_variant_filter.py:get_permitted_scripts", "lgr/mixed_scripts_variant_filter.py:MixedScriptsVariantFilter", "lgr/core.py:LGR._generate_label_variants"]}
{"id": "C30", "title": "Character class combinators compute set algebra", "statement": "A class built from union, intersection, difference, symmetric difference, complement, by-ref, from-tag, property and literal code points denotes exactly the corresponding set of code points, and evaluating it does not change any class; classes accepted by validation evaluate without error when references are not redefined.", "quantifier": "all class expressions of any depth, all class dictionaries and Unicode property assignments", "why_tests_cant": "Structural recursion over arbitrary expression trees.", "anchors": ["lgr/classes.py:Class.get_pattern", "lgr/classes.py:UnionClass", "lgr/classes.py:IntersectionClass", "lgr/classes.py:DifferenceClass", "lgr/classes.py:SymmetricDifferenceClass", "lgr/classes.py:ComplementClass", "lgr/classes.py:set_to_rvalue"]}
{"id": "C31", "title": "Rule evaluation reflects the current definitions", "statement": "Whether a rule matches a label depends only on the current rules, classes and tags of the LGR, not on when the rule was first evaluated.", "quantifier": "all histories interleaving rule evaluation and edits", "why_tests_cant": "A caching property: must hold for every interleaving.", "anchors": ["lgr/rule.py:Rule.get_pattern", "lgr/rule.py:Rule.matches"]}
{"id": "C32", "title": "Whole-label rule patterns have the RFC 7940 meaning", "statement": "The pattern built for a rule matches a label exactly when the RFC 7940 elements (start, end, any, char, class, choice, counts, look-behind, look-ahead, anchor, rule) match it as specified; for protocol-length labels the bounded repetition used in look-behind does not change the result.", "quantifier": "all rule trees and labels", "why_tests_cant": "Semantic equivalence over all rule trees.", "anchors": ["lgr/matcher.py", "lgr/rule.py:Rule.get_pattern", "lgr/rule.py:Rule.matches"]}
{"id": "C33", "title": "Serialising then parsing an LGR preserves its data", "statement": "Parsing the XML produced for an LGR yields the same repertoire, properties and variants.", "quantifier": "all LGR states reachable by any history", "why_tests_cant": "Round trip over all repertoires and histories.", "anchors": ["lgr/parser/xml_serializer.py:_serialize_data", "lgr/parser/xml_parser.py:XMLParser._process_data", "lgr/utils.py:cp_to_str", "lgr/parser/xml_parser.py:string_to_list"]}
{"id": "C34", "title": "Collision detection groups labels by index", "statement": "Labels reported as colliding are exactly those sharing an index label with another label; each unordered pair of colliding labels is reported once.", "quantifier": "all label lists", "why_tests_cant": "Pairs over unbounded lists.", "anchors": ["lgr/tools/diff_collisions.py"]}
{"id": "C35", "title": "Validation runs are independent of earlier runs", "statement": "The list of checks executed by validate depends only on the options given to this call.", "quantifier": "all histories of validation calls", "why_tests_cant": "History independence.", "anchors": ["lgr/validate/__init__.py:validate_lgr"]}
{"id": "C36", "title": "Statistics agree with the repertoire", "statement": "The reported number of code points, sequences, ranges, mappings, and per-tag/per-type counts equal the corresponding counts over the repertoire.", "quantifier": "all LGR states reachable by any history", "why_tests_cant": "Counts over arbitrary repertoires and histories.", "anchors": ["lgr/validate/lgr_stats.py:generate_stats"]}
{"id": "C37", "title": "Harmonising two LGRs makes their variant sets agree on common code points", "statement": "After harmonize, both LGRs are populated and any variant relation between code points common to both holds in both; nothing is removed.", "quantifier": "all pairs of LGRs", "why_tests_cant": "Quantifies over all pairs.", "anchors": ["lgr/tools/harmonize.py:harmonize"]}
{"id": "C38", "title": "Merging an LGR set keeps every code point and keeps references meaningful", "statement": "The merge of a set of LGRs contains every code point of every member; references attached to merged code points denote the same reference values as in the member.", "quantifier": "all LGR sets", "why_tests_cant": "Quantifies over all sets.", "anchors": ["lgr/tools/merge_set.py:merge_chars", "lgr/tools/merge_set.py:merge_references"]}
{"id": "C39", "title": "Metadata dates and languages are stored only when valid", "statement": "Without force, set_date/validity setters store a value only if it is a canonical ISO full-date of an existing day, and otherwise raise leaving the previous value; set_languages stores the list only if every tag is valid.", "quantifier": "all strings", "why_tests_cant": "All strings.", "anchors": ["lgr/metadata.py:_validate_date", "lgr/metadata.py:Metadata.set_languages"]}
{"id": "C40", "title": "Code point text notation round-trips", "statement": "Formatting a code point in hexadecimal (XML attribute or U+ notation) and parsing it back returns the same code point; distinct code points have distinct notations; space separated lists round-trip.", "quantifier": "all code points and sequences", "why_tests_cant": "All integers.", "anchors": ["lgr/utils.py:cp_to_str", "lgr/parser/xml_parser.py:string_to_list", "lgr/tools/utils.py:parse_single_cp_input"]}
{"id": "C41", "title": "Review severity is the maximum of the individual results", "statement": "The overall result in a review summary is the most severe individual result, and counts per remark add up to the number of results.", "quantifier": "all lists of individual results", "why_tests_cant": "All lists.", "anchors": ["lgr/tools/idn_review/summary.py:handle_report", "lgr/tools/idn_review/variant_sets.py:VariantComparison"]}
{"id": "C42", "title": "Variants of an entry form a set keyed by code points and context", "statement": "An entry never holds two variants with the same code points, when and not-when; adding an existing one is refused; deleting removes exactly the designated one; variants are listed in code point order; a range member can never get variants.", "quantifier": "all histories of variant additions and deletions", "why_tests_cant": "Invariant over all histories.", "anchors": ["lgr/char.py:CharBase.add_variant", "lgr/char.py:CharBase.del_variant", "lgr/char.py:CharBase.get_variants", "lgr/char.py:RangeChar"]}
{"id": "C43", "title": "Hiding mixed-script variants keeps the same-script ones", "statement": "With mixed-script hiding, a variant label whose code points all belong to scripts used by the original label (or permitted with them) is still generated.", "quantifier": "all labels, repertoires and script assignments", "why_tests_cant": "All labels and all assignments of scripts.", "anchors": ["lgr/mixed_scripts_variant_filter.py:MixedScriptsVariantFilter", "lgr/core.py:LGR._generate_label_variants"]}
{"id": "C44", "title": "The verdict on a variant label does not depend on which derivation is found first", "statement": "When a variant label can be derived from the original label in several ways, the listed disposition is one given by a derivation, and a derivation that makes the label valid or allocatable is not lost because another one is invalid.", "quantifier": "all labels and repertoires", "why_tests_cant": "Quantifies over all derivations of all labels.", "anchors": ["lgr/core.py:LGR.compute_label_disposition", "lgr/core.py:LGR._generate_label_variants"]}
{"id": "C45", "title": "The conditional-variant check finds exactly the undefined rules", "statement": "check_conditional_variants succeeds exactly when every rule named by a variant (when or not-when) is defined in the LGR, and lists exactly the offending variants otherwise.", "quantifier": "all LGRs and sets of rules", "why_tests_cant": "Decision-procedure correctness in both directions.", "anchors": ["lgr/validate/conditional_variants.py:check_conditional_variants"]}
{"id": "C46", "title": "The metadata check decides the RFC 7940 metadata conditions", "statement": "check_metadata succeeds exactly when the validity end is not past, the validity start is neither in the future nor after the end (as calendar days), the description type is a known media type, every scope type is absent or 'domain', and the version is a positive decimal integer; each recorded test result tells its own condition.", "quantifier": "all metadata and current dates", "why_tests_cant": "Decision-procedure correctness over all dates (compared as texts by the code) and all metadata.", "anchors": ["lgr/validate/metadata.py:check_metadata"]}
{"id": "C47", "title": "A tolerant load goes through and keeps every acceptable code point", "statement": "Loading the data section of an XML document with force never stops at an LGR error: problems are reported in the test results, the load ends normally, and every readable code point of the document that the LGR can accept is in the repertoire afterwards.", "quantifier": "all sequences of char and range elements, with repeated, overlapping and invalid ones, and all starting LGRs", "why_tests_cant": "Quantifies over all malformed documents.", "anchors": ["lgr/parser/xml_parser.py:XMLParser._process_data", "lgr/core.py:LGR.add_cp", "lgr/core.py:LGR.add_range", "lgr/core.py:LGR.add_variant"]}
{"id": "C48", "title": "Comparing labels under two LGRs tells exactly what changed", "statement": "The comparison of a list of labels under two LGRs covers exactly the labels that are in both; for each it lists as added and removed exactly the variant labels that one LGR generates and the other does not, and as changed exactly those generated by both with different dispositions; it is refused only if two of the labels share an index without sharing their variants.", "quantifier": "all pairs of LGRs and all lists of labels", "why_tests_cant": "Quantifies over all pairs of LGRs and labels; the comparison merges the results of all labels that share an index.", "anchors": ["lgr/tools/diff_collisions.py:diff", "lgr/tools/diff_collisions.py:_compare", "lgr/tools/diff_collisions.py:_full_dump"]}
{"id": "C49", "title": "The repertoire review gives each code point its result", "statement": "Reviewing an IDN table against a reference LGR lists each code point and sequence of either once, in order. It is 'subset' when the table does not have it, 'manual check' when the reference does not, 'review' exactly when a tag or context rule the reference requires is missing, 'note' when there is only something in excess, and 'match' when tags (script tags apart) and context are the same. The order in which tags are stored has no influence.", "quantifier": "all pairs of LGRs reached by API calls, and all set iteration orders", "why_tests_cant": "Quantifies over all pairs of LGRs; the comparison walks Python sets whose order changes from run to run.", "anchors": ["lgr/tools/idn_review/repertoire.py:RepertoireReport", "lgr/tools/idn_review/repertoire.py:generate_repertoire_report"]}
{"id": "C50", "title": "The review of classes and actions gives each its result, and matching actions mean matching dispositions", "statement": "Each class of the table or reference gets 'match' only if the members are the same, 'subset' only if the extra members of the reference are not in the table, 'review' when the members both know disagree. Each action is listed once and is a match exactly when the other LGR has an action with the same content; if all actions match and so does the sequence, both LGRs give every label the same disposition.", "quantifier": "all pairs of classes and repertoires, all pairs of lists of actions, all labels", "why_tests_cant": "The last part quantifies over all labels and rule outcomes.", "anchors": ["lgr/tools/idn_review/classes.py:ClassReport", "lgr/tools/idn_review/actions.py:generate_actions_report"]}
{"id": "C51", "title": "The review of variants compares the right sets and never accepts a less conservative variant", "statement": "Each variant set of either LGR is compared exactly once, with one that has the same least member or is contained in or contains it. A variant with the same conditions is a match for the same type, a note for a more conservative type, and a review otherwise; other conditions are never accepted without a manual check. The list of additional code points has those of the table that are in no variant set and not in the reference.", "quantifier": "all pairs of LGRs and all set iteration orders", "why_tests_cant": "Quantifies over all families of variant sets and all mappings.", "anchors": ["lgr/tools/idn_review/variant_sets.py:generate_variant_sets_report", "lgr/tools/idn_review/variant_sets.py:VariantComparison", "lgr/tools/idn_review/variant_sets.py:get_additional_codepoints"]}
{"id": "C52", "title": "An LGR reviewed against itself is a match", "statement": "When the table and the reference are the same LGR every line of the repertoire, class, action, variant and rule reports is a match.", "quantifier": "all LGRs reached by API calls", "why_tests_cant": "Quantifies over all LGRs, symmetric or not, with ranges and conditional variants.", "anchors": ["lgr/tools/idn_review/repertoire.py:generate_repertoire_report", "lgr/tools/idn_review/variant_sets.py:generate_variant_sets_report", "lgr/tools/idn_review/classes.py:generate_classes_report", "lgr/tools/idn_review/actions.py:generate_actions_report", "lgr/tools/idn_review/whole_label_evaluation_rules.py:generate_whole_label_evaluation_rules_report"]}
{"id": "C53", "title": "The review of rules reports each rule once and misses no rule a code point of the table needs", "statement": "Each rule of the table or reference has one line. A rule missing in the table is accepted as a subset exactly when the reference uses it and only for code points the table does not have. Whether a test label is made of entries of the table is answered correctly for every label.", "quantifier": "all pairs of LGRs, all rules and labels", "why_tests_cant": "Quantifies over all LGRs and labels, including the cutting of a label into sequences.", "anchors": ["lgr/tools/idn_review/whole_label_evaluation_rules.py:WholeLabelEvaluationRuleReport", "lgr/tools/idn_review/whole_label_evaluation_rules.py:WholeLabelEvaluationRulesCheck.check_label_cp_in_repertoire"]}
{"id": "C54", "title": "The variant types an LGR lists are those it was given", "statement": "The set of variant types of an LGR has the type of every variant present, and only types that some accepted addition of a variant gave. Refused additions add none.", "quantifier": "all editing histories", "why_tests_cant": "Quantifies over all histories.", "anchors": ["lgr/core.py:LGR.add_variant", "lgr/core.py:LGR.types"]}
{"id": "C55", "title": "The data and rules check says what is wrong", "statement": "The miscellaneous RFC 7940 check succeeds exactly when every action has a standard disposition, every variant type is usable, every code point is valid in the declared Unicode version (when that is the database's version) and references are in ascending order. Each test is recorded, and recorded as failed exactly when it fails.", "quantifier": "all LGRs, actions, versions and Unicode databases", "why_tests_cant": "Quantifies over all LGRs and databases; the tests are skipped in combinations that no sample shows.", "anchors": ["lgr/validate/miscellaneous.py:check_miscellaneous", "lgr/validate/miscellaneous.py:check_lgr_data", "lgr/validate/miscellaneous.py:check_lgr_rules"]}
{"id": "C56", "title": "The IDNA 2008 report lists exactly the entries that are not compliant", "statement": "Each code point, sequence or range member with a code point IDNA 2008 refuses is listed once, unless a variant of itself declares it out of the repertoire; the two numbers reported add up to the number of entries, and the IDNA 2003 flag is right.", "quantifier": "all LGRs reached by API calls and all Unicode databases", "why_tests_cant": "Quantifies over all LGRs and databases.", "anchors": ["lgr/tools/idna2008_compliance.py:check_idna2008_compliance"]}
{"id": "C57", "title": "The script chosen for a label is that of its first character with a script", "statement": "The LGR tag chosen for a root zone label is that of the first code point that is neither Common nor Inherited, with kana (and Han followed by kana) giving Japanese and Hangul giving Korean. Leading common code points make no difference.", "quantifier": "all labels and script tables", "why_tests_cant": "Quantifies over all labels; the branches depend on the order of the code points.", "anchors": ["lgr/tools/utils.py:get_rz_label_script"]}
{"id": "C58", "title": "A list of labels is read line by line, each label as it was written", "statement": "Each line of a label file gives exactly one reading of its text (without byte order mark, surrounding blanks and comment), in order, and a line without text gives none. A label given as U+ code points, as several hexadecimal code points, as an A-label or as text is read as that label; anything else is reported as not valid with its error, keeping the text. Without do_raise the reading never stops; with it, it stops at the first unreadable line with its error.", "quantifier": "all files (lists of lines) and all IDNA decoders", "why_tests_cant": "Quantifies over all texts, with all combinations of blanks, comments, marks and notations.", "anchors": ["lgr/tools/utils.py:read_labels", "lgr/tools/utils.py:parse_label_input", "lgr/tools/utils.py:parse_codepoint_input"]}
{"id": "C59", "title": "The annotation of a label shows its disposition and the reason", "statement": "Annotating a file shows for each readable label the disposition given by the LGR, then each code point at fault with its reason, or the action that refused the label; and for each other line its error. With a set of labels, the labels of the set that are not in the LGR are listed first, and each label is shown with its disposition under the LGR of its script and the collision found.", "quantifier": "all files, LGRs, rules, actions and sets of labels", "why_tests_cant": "Quantifies over all labels and LGRs; which action decides depends on all those before it.", "anchors": ["lgr/tools/annotate.py:annotate", "lgr/tools/annotate.py:lgr_set_annotate"]}
{"id": "C60", "title": "A list of code points gives exactly the code points of its lines", "statement": "Reading a file with one code point or sequence per line never fails and yields an LGR whose code points and sequences are exactly those the lines mention in the U+ notation, with no reference, comment, tag, rule or variant. Comments are not read.", "quantifier": "all files (lists of lines)", "why_tests_cant": "Quantifies over all texts: any mix of blanks, comments, notations, repeated and empty lines.", "anchors": ["lgr/parser/line_parser.py:LineParser", "lgr/parser/line_parser.py:LineParser._parse_doc"]}
{"id": "C61", "title": "An RFC 4290 table gives each character exactly the variants of its rows", "statement": "The LGR read from an RFC 4290 table has exactly the characters and sequences of its rows, and each of them has exactly the variants that its own rows list, without type.", "quantifier": "all files (lists of lines), with and without force", "why_tests_cant": "Quantifies over all files; a row can be affected by the rows before it.", "anchors": ["lgr/parser/rfc4290_parser.py:RFC4290Parser", "lgr/parser/rfc4290_parser.py:RFC4290Parser._parse_doc"]}
{"id": "C62", "title": "An RFC 3743 table gives its characters, preferred and other variants, references and version", "statement": "The LGR read from an RFC 3743 table has exactly the characters of its rows; each has the preferred variants of its rows as activated and the other ones without type, citing the references declared before; the references are those of the reference lines and the version and date those of the last version line. The first mention of an item counts.", "quantifier": "all files (lists of lines)", "why_tests_cant": "Quantifies over all files and all orders of rows, references and version lines.", "anchors": ["lgr/parser/rfc3743_parser.py:RFC3743Parser", "lgr/parser/rfc3743_parser.py:RFC3743Parser._parse_doc"]}
{"id": "C63", "title": "The format of a table is that of its first specific line", "statement": "A file that is not XML is read as RFC 3743 or RFC 4290 according to the first line that is specific of one of them, as RFC 4290 when no line is but one has a code point, and as XML otherwise.", "quantifier": "all files (lists of lines)", "why_tests_cant": "Quantifies over all texts and orders of lines.", "anchors": ["lgr/parser/heuristic_parser.py:HeuristicParser"]}
{"id": "C64", "title": "The results recorded while reading a document say what their names say", "statement": "After an XML document was read, the recorded RFC 7940 results tell whether a Unicode version was given, whether it and the language tags are valid, whether the characters are in order without repetition, and whether all elements were known and accepted.", "quantifier": "all XML documents, with and without force", "why_tests_cant": "Quantifies over all documents; each result aggregates what happened at every element.", "anchors": ["lgr/parser/xml_parser.py:XMLParser._process_meta", "lgr/parser/xml_parser.py:XMLParser._process_data", "lgr/rfc7940.py"]}
{"id": "C65", "title": "A comparison of two LGRs reports every difference, and only differences", "statement": "Comparing two LGRs lists exactly the metadata fields, references, code points, entries (comment, tags, variants), dispositions, rule names and class names in which they differ; with show_same it also lists what they share. Nothing is reported between an LGR and itself, and the arguments keep their contents.", "quantifier": "all pairs of LGRs, both values of show_same, all orders of enumeration of sets", "why_tests_cant": "Quantifies over all pairs of LGRs and all enumeration orders; tests check some texts.", "anchors": ["lgr/tools/compare/diff.py:diff_lgrs", "lgr/tools/compare/diff.py:diff_char", "lgr/tools/compare/diff.py:diff_metadata"]}
{"id": "C66", "title": "A comparison of two LGR sets compares every pair of LGRs with the same script", "statement": "Comparing two sets of LGRs lists the scripts that only one of them has with the LGRs concerned, and for each common script the comparison of each LGR of the first set with each of the second one.", "quantifier": "all pairs of sets of LGRs", "why_tests_cant": "Quantifies over all sets, including several LGRs for a script and earlier comparisons having expanded the ranges.", "anchors": ["lgr/tools/compare/diff.py:diff_lgr_sets", "lgr/tools/compare/diff.py:diff_lgrs"]}
{"id": "C67", "title": "Rebuilding an LGR reports what the Unicode database and the validating repertoire refuse", "statement": "Rebuilding an LGR with a Unicode database and a validating repertoire reports, for every entry in order, exactly the code points refused by the database or absent from the repertoire, those of other scripts than the LGR's, and the variants with refused code points. Nothing is reported exactly when all are accepted, and rebuilding never fails.", "quantifier": "all LGRs, Unicode databases, validating repertoires and script assignments", "why_tests_cant": "Quantifies over all histories that led to the LGR; each entry is added to a target already holding the previous ones, with or without force.", "anchors": ["lgr/validate/rebuild_lgr.py:rebuild_lgr", "lgr/core.py:LGR.cp_in_script", "lgr/core.py:LGR.check_range"]}
{"id": "C68", "title": "The review of an IDN table tells which general rules apply and whether they exist", "statement": "For combining marks, hyphens, initial digits in right-to-left tables, mixed digit sets and the Katakana middle dot, the review says whether the rule applies to the repertoire; it says the rule exists exactly when all labels tried can be spelled and are refused, that it does not when one is accepted before any that cannot be spelled, and nothing otherwise. Reports without reference list the repertoire and count its valid entries.", "quantifier": "all repertoires, Unicode databases, language tags and eligibility tests", "why_tests_cant": "Quantifies over all tables and all sets of rules; the labels tried come from fixed tables whose every entry must be right.", "anchors": ["lgr/tools/idn_review/whole_label_evaluation_rules.py:WholeLabelEvaluationRulesCheck", "lgr/tools/idn_review/repertoire.py:generate_repertoire_core_report", "lgr/tools/idn_review/variant_sets.py:generate_variant_sets_core_report"]}
{"id": "C69", "title": "The review of an IDN table compares each of its language tags with each of the reference", "statement": "The language tag report has a line for each tag of the table (one '-' line when it has none), in order, with the verdict on each tag of the reference, in order: an exact match for the same language and script, a match for the same language or for a language and its script, a manual check for unknown tags, a review otherwise.", "quantifier": "all lists of tags, all contents of the language registry", "why_tests_cant": "Quantifies over all tags and registries.", "anchors": ["lgr/tools/idn_review/language_tag.py:LanguageTagReport", "lgr/tools/idn_review/language_tag.py:generate_language_tag_report", "lgr/utils.py:tag_to_language_script"]}
{"id": "C70", "title": "The scripts of the metadata are those its languages tell, cached or not", "statement": "get_scripts gives, language by language, the Unicode scripts of the script subtag or else of the script the language is always written in, passing over invalid tags unless told otherwise. Whatever the history of changes of the languages and of calls, the cached answer is the one computed afresh.", "quantifier": "all lists of languages, all contents of the registry, all histories of changes and calls", "why_tests_cant": "Quantifies over all histories; a stale entry needs a particular interleaving of changes and calls.", "anchors": ["lgr/metadata.py:Metadata.get_scripts", "lgr/memoize.py:MethodAttributeMemoizer", "lgr/utils.py:script_iso15924_to_unicode"]}
{"id": "C71", "title": "The metadata of a merged set say what its members say", "statement": "Merging a set of LGRs gives metadata with every language, scope, version and version comment of the members once, in the order of the scripts; the latest start and the earliest end; the greatest Unicode version; today's date; and a description that holds each member's, in order. The order in which the set is given does not matter when no two members have the same script, and the result can be written and read back.", "quantifier": "all sets of LGRs, in any order", "why_tests_cant": "Quantifies over all sets and orders; tests merge a few fixed sets.", "anchors": ["lgr/tools/merge_set.py:merge_metadata", "lgr/tools/merge_set.py:merge_version", "lgr/tools/merge_set.py:merge_description", "lgr/tools/merge_set.py:merge_lgr_set"]}
{"id": "C72", "title": "The rules section of a document is read as it says and survives writing", "statement": "Reading the <rules> section of an LGR document gives each class, rule and action exactly as its element says (code points, ranges, references, combinations, counts, nesting), each name standing for the last element of that name. A section is accepted under force just if every element is well-formed, and otherwise just if each class and rule is also valid given those before it. Elements of unknown name are reported and passed over. Writing the rules and reading them back gives the same rules, names, actions and cached patterns.", "quantifier": "all <rules> sections (element trees), with and without force, with and without a Unicode database, onto any tables already present", "why_tests_cant": "Quantifies over all element trees, of any depth and order; tests parse a few fixed documents.", "anchors": ["lgr/parser/xml_parser.py:XMLParser._process_rules", "lgr/parser/xml_parser.py:XMLParser._parse_class", "lgr/parser/xml_parser.py:XMLParser._parse_rule", "lgr/parser/xml_parser.py:XMLParser._parse_action", "lgr/parser/xml_parser.py:drop_ns", "lgr/parser/xml_serializer.py:_serialize_rules"]}
{"id": "C73", "title": "Labels are evaluated by the rules of the LGR, whatever was evaluated before", "statement": "When the rules that entries, variants and actions name are defined, every evaluation of a label (eligibility, disposition of the label and of its variants, index label, estimate) is the one in which each rule has the verdict RFC 7940 gives it, independent of earlier evaluations and of cached patterns. Otherwise an evaluation raises only KeyError of a name that is not defined, or what a named rule itself raises; failures leave nothing behind that changes later evaluations.", "quantifier": "all LGRs (repertoires, classes, rules, actions), labels, options, and histories of evaluations", "why_tests_cant": "Quantifies over all LGRs and all histories of evaluations; caches make each result depend on the past.", "anchors": ["lgr/core.py:LGR._test_context_rules", "lgr/core.py:LGR.test_label_eligible", "lgr/core.py:LGR.compute_label_disposition", "lgr/core.py:LGR.generate_index_label", "lgr/core.py:LGR._apply_actions", "lgr/action.py:Action.apply", "lgr/rule.py:Rule.matches"]}
{"id": "C74", "title": "A summary of dispositions counts the labels listed", "statement": "compute_label_disposition_summary returns the complete listing of the label and its variants, and for each disposition that occurs in it, and no other, the number of labels that have it; it raises what the listing raises.", "quantifier": "all LGRs, labels and options", "why_tests_cant": "Quantifies over all LGRs and labels.", "anchors": ["lgr/core.py:LGR.compute_label_disposition_summary"]}
{"id": "C75", "title": "What labels get depends only on the entries of the LGR, not on how it was built", "statement": "Two LGRs with the same code points and sequences, the same contexts and the same variants give the same answers to every question about every label (eligibility, index label, variants, dispositions, estimate) under the same rules: the order in which entries were added, ranges or single code points, comments, tags and references change nothing. In particular expanding ranges and writing and reading back change no answer.", "quantifier": "all pairs of LGRs with the same entries, all labels, rules, actions and options", "why_tests_cant": "Quantifies over all ways of building an LGR and all labels.", "anchors": ["lgr/core.py:LGR.test_label_eligible", "lgr/core.py:LGR.compute_label_disposition", "lgr/core.py:LGR.generate_index_label", "lgr/core.py:LGR.estimate_variant_number", "lgr/char.py:Repertoire.get_chars_from_prefix", "lgr/core.py:LGR.expand_ranges"]}
{"id": "C76", "title": "A document read with a Unicode database is ready to evaluate labels by its own rules", "statement": "When an LGR document that gives no name to two classes or two rules has been read with a Unicode database (forced or not), every rule of it resolves to defined rules and classes and the patterns computed while reading are those of the whole document: labels get the dispositions RFC 7940 defines by the document's rules, whatever was evaluated before, and the same as if nothing had been computed ahead. Documents the schema allows, with or without metadata, can be read.", "quantifier": "all documents, databases, options of the reader, labels and histories of evaluations", "why_tests_cant": "Patterns are computed rule by rule while only part of the document has been seen and cached for good; whether they are still right at the end depends on every order of classes and rules.", "anchors": ["lgr/parser/xml_parser.py:XMLParser.parse_document", "lgr/parser/xml_parser.py:XMLParser._fast_iter", "lgr/parser/xml_parser.py:XMLParser._parse_rule", "lgr/rule.py:Rule.precalculate_patterns", "lgr/rule.py:Rule.get_pattern", "lgr/core.py:LGR.test_label_eligible"]}
{"id": "C77", "title": "A document that was read can be written and read back, and then stays as it is", "statement": "What is written for an LGR document that was read without force can be read again under the same options, and gives the same metadata, code points, variants, references, classes, rules and actions; labels get the same answers from both. From then on nothing changes: the same document is written again, and reading it gives exactly what was read back.", "quantifier": "all documents (metadata, data and rules sections), databases and options of the reader, labels", "why_tests_cant": "Quantifies over all documents; the order of code points, of sequences and of rules is changed by reading and by writing, and each may spoil what depends on it.", "anchors": ["lgr/parser/xml_parser.py:XMLParser.parse_document", "lgr/parser/xml_serializer.py:serialize_lgr_xml", "lgr/char.py:Repertoire.__iter__", "lgr/core.py:LGR.test_label_eligible"]}
{"id": "C78", "title": "A Unicode database may be set after the document has been read", "statement": "An LGR document read without a Unicode database, and given the database later, is the LGR that is read with the database, and gives every label the same answers. What can be read without the database can be read with it exactly when the database allows every code point in it and gives every rule a meaning.", "quantifier": "all documents, databases, options of the reader without force, labels", "why_tests_cant": "Quantifies over all documents and databases: the database is consulted for every code point and to compile every rule while reading, and its patterns are cached per database.", "anchors": ["lgr/core.py:LGR.unicode_database", "lgr/parser/parser.py:LGRParser.unicode_database", "lgr/parser/xml_parser.py:XMLParser.parse_document", "lgr/rule.py:Rule.get_pattern"]}
{"id": "C79", "title": "The collision report of a label list is exact", "statement": "The report of a list of labels against an LGR and existing TLDs shows each line that is no label, the labels that are TLDs and those not in the LGR, sorted, and each index that labels share once; below it every two different labels with this index, and every label with every TLD, and no others; with the dump, for each label its variants with their dispositions, and how many there are of each disposition.", "quantifier": "all label lists and TLD lists, index and listing functions of any LGR, orders of the set of TLDs, with and without dump", "why_tests_cant": "Quantifies over all label lists and LGRs: labels are grouped by index in a table, expanded with their variants, filtered and paired, and what is shown depends on all of them.", "anchors": ["lgr/tools/diff_collisions.py:collision", "lgr/tools/diff_collisions.py:_write_complete_output", "lgr/tools/diff_collisions.py:_full_dump", "lgr/tools/diff_collisions.py:_read_tlds"]}
{"id": "C80", "title": "The verdict of the RFC 7940 tool is exact", "statement": "For an LGR document that can be read, the RFC 7940 tool says FAIL exactly if the schema was not given or the tests not made, a language is missing or malformed, an element was not understood, a code point or variant cannot be taken as written, a date is wrong, a description, scope, disposition or variant type is not standard, or the Unicode version differs; WARN if nothing of that holds but the version is no number, the code points or references are not in order, or a mapping is not symmetric or transitive; and PASS otherwise. The full report ends with that verdict.", "quantifier": "all documents, Unicode databases, language registries, media types, dates and options of the tool", "why_tests_cant": "Quantifies over all documents: the verdict depends on every test recorded while reading and by all checks, and a test that is silently not made also fails the document.", "anchors": ["tools/rfc7940_validate.py:main", "lgr/validate/__init__.py:validate_lgr", "lgr/parser/xml_parser.py:XMLParser", "lgr/rfc7940.py", "lgr/validate/metadata.py:check_metadata", "lgr/validate/miscellaneous.py:check_miscellaneous"]}
{"id": "C81", "title": "The label validation tool gives the right answer for every label", "statement": "For each line of input, the tool lgr_validate shows whether the label is eligible under the LGR of the chosen script (the last one of the set with that language) and its disposition; for an eligible label with a set of labels it says that the label is in the set, or which label of the set it collides with, or that there is no collision, and reports trouble instead exactly if the labels of the set collide among themselves; for another label it shows the code points at fault with the rules they break. With the option for it, the variants are listed.", "quantifier": "all LGRs and sets of LGRs, label lists of the set, input lines, options, orders of Python sets", "why_tests_cant": "Quantifies over all LGRs, sets and labels; a collision found in a table of indexes must be traced back to the label asked for, and one failing line ends the run for all that follow.", "anchors": ["tools/lgr_validate.py:check_label", "tools/lgr_validate.py:main", "lgr/tools/utils.py:LgrSetToolArgParser.process_set", "lgr/tools/diff_collisions.py:get_collisions"]}
{"id": "C82", "title": "The label testing tool shows every variant with the action that decided", "statement": "In test mode, the tool lgr_cli shows for each label whether it is valid and, if so, its disposition with the action that decided, and each label listed for it (the label itself last) with its variant types, its disposition and the action that decided; it can do so for every label of at most 63 code points. Without test mode nothing is written and the run ends in the same way.", "quantifier": "all LGRs, labels, lists of labels and options", "why_tests_cant": "Quantifies over all LGRs and labels: the number of the action is counted over the actions of the LGR and the default ones, and any of the listed labels may have no decision or unusual types.", "anchors": ["tools/lgr_cli.py:check_label", "tools/lgr_cli.py:main", "lgr/core.py:LGR.compute_label_disposition_summary", "lgr/core.py:LGR._apply_actions"]}
{"id": "C83", "title": "Tables printed as documents say the same", "statement": "What the dump tools print for a file with one code point per line, an RFC 4290 table, an RFC 3743 table or the registry of IDNA properties is a document that reading accepts, and that gives back exactly the code points, sequences, variants, types, references and version of the file (for the registry, the code points with the properties PVALID, CONTEXTO and CONTEXTJ), and nothing else.", "quantifier": "all files, all registries, all Unicode databases of the reader that accept the code points, strict and tolerant reading", "why_tests_cant": "Quantifies over all tables: it composes reading a text format, writing and reading XML, each with conditions that the result of the step before must meet.", "anchors": ["lgr/tools/utils.py:LgrDumpTool.process_dump", "tools/one_per_line_dump.py", "tools/rfc4290_dump.py", "tools/rfc3743_dump.py", "tools/make_idna_repertoire.py", "lgr/parser/rfc3743_parser.py", "lgr/parser/rfc4290_parser.py"]}
{"id": "C84", "title": "Tolerant reading changes nothing for a correct document", "statement": "A document that is read without force is read with force too, to the same metadata, repertoire, classes, rules, actions and test results; so what is refused with force is refused without.", "quantifier": "all documents, databases and fuels", "why_tests_cant": "Quantifies over all documents: force is consulted in about twenty places of the parser and of the LGR, each of which must be without effect unless strict reading fails.", "anchors": ["lgr/parser/xml_parser.py:XMLParser.parse_document", "lgr/core.py:LGR.add_cp", "lgr/core.py:LGR.add_variant", "lgr/core.py:LGR.add_range", "lgr/metadata.py:Metadata.set_date"]}
{"id": "C85", "title": "The populate tool prints the document with its variants completed", "statement": "What lgr_populate_variants prints for a document can be read; it is the document that was given with its variants made symmetric and transitive: the same metadata, references, classes, rules and actions, the same entries but for their variants, and as new entries only the targets of variants.  Given what it printed, the tool prints the same again.  It prints nothing if the schema refuses the document, and stops with an error of the library if a variant cannot be completed.", "quantifier": "all documents that strict reading accepts, all Unicode databases, with and without schema", "why_tests_cant": "Quantifies over all documents: it composes reading, a fixpoint computation over the variants, writing, and reading again, and what the fixpoint leaves must meet the conditions under which a document is read back.", "anchors": ["tools/lgr_populate_variants.py:main", "tools/xml_dump.py:main", "lgr/tools/utils.py:parse_lgr", "lgr/tools/utils.py:LgrToolArgParser.get_unidb", "lgr/core.py:LGR.populate_variants", "lgr/parser/xml_serializer.py:serialize_lgr_xml"]}
{"id": "C86", "title": "A review that matches in every part means the LGRs agree", "statement": "The review of an IDN table against a reference LGR completes whenever both have a Unicode database, evaluable classes and variants that go both ways, and the table has no sequences.  Each of the six parts of its summary is the worst result of that part's lines, with every remark counted.  A part is a match exactly when the two LGRs agree on it: languages; code points with their tags and contexts; classes restricted to the repertoire; rules by name, text and use; actions.  Matching repertoires and variants have the same variants with the same types and contexts, those of a code point to itself apart.  The checks of a variant set tell its symmetry and transitivity.  A table reviewed against itself matches in every part.", "quantifier": "all pairs of LGRs built with the API, with their languages, classes, rules and actions; all language registries; all iteration orders of sets", "why_tests_cant": "Quantifies over pairs of LGRs of any size: a summary line is computed from graph components paired by heuristics, and what it means for every row of every set to match is a statement on all mappings of both LGRs.", "anchors": ["lgr/tools/idn_review/review.py:review_lgr", "lgr/tools/idn_review/summary.py:generate_summary", "lgr/tools/idn_review/classes.py:generate_classes_report", "lgr/tools/idn_review/variant_sets.py:VariantSetsReport.checks", "lgr/tools/idn_review/variant_sets.py:VariantSetsReport.to_dict"]}
{"id": "C87", "title": "The collision tool announces exactly the labels that collide with a reference label", "statement": "For each label of the input, the collision tool names a reference label with the same index, the last one of the file, or says that there is none.  Reference labels outside of the LGR do not matter.  For LGRs of single code points without contexts whose variants are symmetric and transitive, a collision is announced exactly if the label is a reference label or a variant of one.  When asked for variants it lists exactly those of the label that the reference label has too, with their dispositions.  It ends normally when all labels are in the LGR.", "quantifier": "all LGRs built with the API, all lists of reference labels and labels, with and without generation of variants", "why_tests_cant": "Quantifies over all LGRs and lists of labels; an index shared by two labels is a statement on all variants of both.", "anchors": ["tools/lgr_collision.py:main", "tools/lgr_collision.py:find_variants_to_block", "tools/lgr_collision.py:compute_label_index", "lgr/core.py:LGR.generate_index_label"]}
{"id": "C88", "title": "What the comparison tool prints can be read back and combined again", "statement": "Given two readable LGRs, the comparison tool prints their union or intersection, and a strict reader of what was printed gets exactly that union or intersection: the same metadata, code points, variants and references.  The result can be given to the tool again.  A file without LGR or refused by the schema is named and nothing is printed; one LGR is not compared with a set; sets are only compared, in the order given.", "quantifier": "all pairs of LGRs whose own metadata and tags can be written, all iteration orders of Python sets, all readers; all lists of files", "why_tests_cant": "Quantifies over all LGRs and over the iteration order of hash sets; readability of the result is a statement on writer and reader together.", "anchors": ["tools/lgr_compare.py:main", "lgr/tools/utils.py:merge_lgrs", "lgr/tools/utils.py:parse_lgr", "lgr/tools/compare/union.py:union_lgrs", "lgr/tools/compare/intersect.py:intersect_lgrs", "lgr/parser/xml_serializer.py:serialize_lgr_xml"]}
{"id": "C89", "title": "The harmonization tool writes both results, readable and complete", "statement": "Given two files with different names, each holding an LGR that a strict reader accepts, the harmonization tool always succeeds. It writes two files, named after those given with _harmonized before the extension, and touches no other file. Each can be read strictly with the same database, keeps metadata (but for the mark in the comment of the version), references, rules and entries of the LGR it comes from, and has its variants completed by those of the other (and of the root zone, if one is given). The code points that only one LGR has are listed. If it fails, no file is written.", "quantifier": "all pairs of documents a strict reader accepts, all paths, all iteration orders of Python sets, all readers and databases, every previous content of the directory", "why_tests_cant": "Quantifies over all LGRs and iteration orders; readability of the written files is a statement on harmonizing, writing and reading together.", "anchors": ["tools/lgr_harmonize:main", "lgr/tools/harmonize.py:harmonize", "lgr/tools/utils.py:parse_lgr", "lgr/parser/parser.py:LGRParser.__init__", "lgr/parser/xml_serializer.py:serialize_lgr_xml"]}
{"id": "C90", "title": "The review tool writes one report for each table and reference", "statement": "For each IDN table and each reference LGR given, the review tool writes a file, named after both, that holds the review of exactly this pair with the names and versions of both; no other file changes. The order in which Python's sets of files come does not matter, and a file given twice counts once. The tool succeeds whenever all files can be read and each review completes. Whatever happens, each file is as before, or holds the review of a pair under its name, or is empty and the tool failed; at most one is left empty. If a file cannot be read at all, nothing is written. The review without a reference completes for tables with a database and without sequences, and counts the valid entries.", "quantifier": "all lists of tables and references, all contents of files, all iteration orders of Python sets, every previous content of the directory", "why_tests_cant": "Quantifies over all sets of files, all names and all iteration orders; loss by colliding names shows only for particular combinations.", "anchors": ["tools/lgr_idn_table_review.py:main", "lgr/tools/idn_review/review.py:review_lgr", "lgr/tools/idn_review/review.py:review_with_core_requirements", "lgr/tools/idn_review/header.py:generate_header", "lgr/tools/utils.py:parse_lgr"]}
{"id": "C91", "title": "Completing the variants does not change the verdict on labels of the LGR", "statement": "Whether a label is eligible, its disposition and the action that decides it, how it is cut and which code points are refused for which rules depend only on the entries that occur in the label, their rules and their mappings to themselves. So populating an LGR with its missing variants, or harmonizing two LGRs (with a root zone LGR or without), changes the verdict on no label in which none of the added code points or sequences occurs; populating leaves the mappings of code points to themselves exactly as they were.", "quantifier": "all LGRs, all labels without an added code point, all rules, all lists of actions, all iteration orders of Python sets", "why_tests_cant": "Quantifies over all LGRs and all labels: rules copied to the reverse of a variant could touch mappings of a code point to itself only in particular combinations of rules.", "anchors": ["lgr/core.py:LGR.test_label_eligible", "lgr/populate/__init__.py:populate_lgr", "lgr/tools/harmonize.py:harmonize"]}
{"id": "C92", "title": "The report comparing two LGRs on a label list is exact, section by section", "statement": "A complete comparison report consists of the lines that are no labels with their errors; if any label is not in one of the LGRs, the labels not in the first and those not in the second; for each label not in both a line naming the first LGR it is not in; for each label in both, once, exactly the labels whose disposition differs with both dispositions, those only the second LGR lists and those only the first lists, each once and with its kind, or the statement that there is no such change; and for each LGR the pairs of labels below a common index, as the collision report of that LGR alone shows them for the same lines. The report is complete iff every label has an index or is not in the LGR, the variants of labels in an LGR can be computed, and each LGR lists for every label in both LGRs all that it lists for labels with the same index (with a dump: for every label, with a disposition). Otherwise no collision is shown at all. An LGR compared with itself has no changes. The tool prints this report for two LGRs, the collision report for one, and nothing but an error for a file that the schema refuses.", "quantifier": "all pairs of LGRs, all label files, all options, all iteration orders of Python sets", "why_tests_cant": "The sections depend on each other: one label for which an LGR's variants are not symmetric ends the report, and which labels share an index depends on the whole file and both LGRs.", "anchors": ["lgr/tools/diff_collisions.py:diff", "lgr/tools/diff_collisions.py:_compare", "lgr/tools/diff_collisions.py:_compare_labels", "lgr/tools/diff_collisions.py:_get_new_variants", "tools/lgr_diff_collisions.py:main"]}
{"id": "C93", "title": "Hiding mixed-script variants only removes labels, and exactly those that mix scripts", "statement": "With mixed-script hiding, the variant labels generated are exactly those derivable by replacing entries such that every piece stays within the scripts permitted with those of the label (the first entry may stay as it is), or the first piece is in other scripts that every position of the label offers and all further pieces are within the scripts permitted with that of its first code point. No label is added. Each label keeps the variant types, and so the disposition, it has without hiding, and a variant label wholly in one script, all entries being replaced, is never hidden.", "quantifier": "all labels, repertoires, context rules and script assignments", "why_tests_cant": "Which scripts are offered depends on every position of the label and every entry that starts there.", "anchors": ["lgr/mixed_scripts_variant_filter.py:MixedScriptsVariantFilter", "lgr/mixed_scripts_variant_filter.py:MixedScriptsVariantFilter._get_scripts_for_variants", "lgr/core.py:LGR._generate_label_variants"]}
{"id": "C94", "title": "The annotation tool writes the annotation of its labels and touches no other file; the merge tool prints the merged LGR", "statement": "Run with one LGR, the annotation tool puts into its output file, for each label of the label file in order, its annotation. Run with a set of LGRs and a script it uses the merged LGR and the last LGR of the set whose first language is the script. Whatever happens, no file other than the output file changes; if the LGR is not readable, the script is absent or unknown, or the label file does not exist, no file changes. What the merge tool prints for a set is the document of the LGR merged from the files in the order given.", "quantifier": "all files, all arguments, all LGRs and label lists", "why_tests_cant": "The order in which files are opened and the reasons to stop combine with every content of the files.", "anchors": ["tools/lgr_annotate.py:main", "lgr/tools/utils.py:LgrSetToolArgParser.process_set", "lgr/tools/utils.py:merge_lgrs", "tools/lgr_merge_set.py:main", "lgr/parser/xml_serializer.py:serialize_lgr_xml"]}
{"id": "C95", "title": "Harmonizing and merging LGRs keep the collisions of labels, and harmonized LGRs find the same ones", "statement": "Two labels that collide in an LGR (their index labels are equal) still collide after the LGR was harmonized with another or merged into a set. Two harmonized LGRs give a label of both the same index label, and labels of different ones collide exactly when they are variants of each other. The LGR merged from members without common code points gives each label of a member the index label of the member, and it collides with no label outside the member.", "quantifier": "all pairs and sets of LGRs of single code points without context rules, all labels, all orders of sets", "why_tests_cant": "A collision depends on the classes of variants reached through both LGRs; only sample labels can be tested.", "anchors": ["lgr/tools/harmonize.py:harmonize", "lgr/tools/merge_set.py:merge_lgr_set", "lgr/core.py:LGR.generate_index_label"]}
{"id": "C96", "title": "The rules and classes of an LGR keep their meaning in the LGR merged from a set", "statement": "In the LGR merged from a set, a class of a member, under its name with the member's script, stands for the code points it stood for, and a rule of a member, under its name with the script, refers to the classes, tags and rules it referred to, renamed, and so matches exactly the labels it matched, wherever it is anchored.", "quantifier": "all sets of LGRs, all rules and classes of their members however nested, all labels, anchors and Unicode databases", "why_tests_cant": "Renaming is by regular expressions on XML text; a reference missed only shows in the label that needs the rule.", "anchors": ["lgr/tools/merge_set.py:rename_rule", "lgr/tools/merge_set.py:merge_rules", "lgr/tools/merge_set.py:rename_class", "lgr/tools/merge_set.py:merge_classes"]}
{"id": "C97", "title": "Labels of the union and of the intersection of two LGRs", "statement": "A label passes the code point test of the intersection of two LGRs only if it is made of code points and sequences both have, and does if all its code points are in both; it passes that of the union only if it is made of entries in both or allowed, where they stand, by the one that has them, and does if all its code points are such. So a label of either LGR is one of the union, a label of both one of the intersection, and a label of the intersection one of both; two labels collide in the intersection exactly when they collide in both.", "quantifier": "all pairs of LGRs built without forcing, all rules, all labels, all orders in which sets are enumerated", "why_tests_cant": "Sampled code points do not show how longest match, dropped contexts and lost variants combine in a label.", "anchors": ["lgr/tools/compare/union.py:union_lgrs", "lgr/tools/compare/union.py:union_char", "lgr/tools/compare/intersect.py:intersect_lgrs", "lgr/tools/compare/intersect.py:intersect_char", "lgr/core.py:LGR.test_label_eligible", "lgr/core.py:LGR.generate_index_label"]}
{"id": "C98", "title": "The short collision report is exact", "statement": "The short report on a list of labels names exactly the labels that are in the TLD list, exactly the pairs of different labels, or of a label and a TLD, with the same index, every line that is no label and every label that is not in the LGR; it says that there is no collision exactly when no label is a TLD or collides; its sections come in order, and it is complete whenever indexes can be computed.", "quantifier": "all LGRs, label lists and TLD lists, with and without annotations, all orders in which sets are enumerated", "why_tests_cant": "A report on a few labels does not show that none is left out of some section.", "anchors": ["lgr/tools/diff_collisions.py:basic_collision", "lgr/tools/diff_collisions.py:_write_simple_output", "lgr/tools/diff_collisions.py:_read_tlds"]}
{"id": "C99", "title": "Labels in the LGR merged from a set", "statement": "A label whose code points stand where the LGRs of the set allow them gets no complaint from the merged LGR, and the actions of the LGRs, other than the default ones, decide on it in the order of the scripts, the label being valid when none triggers; a label without complaint is made of code points of the LGRs; a label of one LGR gets the verdict it gets there when the others have nothing to say on it; all variants listed are made with blocked variants, and are blocked or invalid unless an action of one of the LGRs says otherwise.", "quantifier": "all sets of LGRs that can be merged, all labels, all rules, all orders in which sets are enumerated", "why_tests_cant": "Merged sets are tested on whether their parts are there, not on what they say of labels that mix code points, actions and contexts of several LGRs.", "anchors": ["lgr/tools/merge_set.py:merge_lgr_set", "lgr/tools/merge_set.py:merge_actions", "lgr/tools/merge_set.py:rename_action", "lgr/core.py:LGR.test_label_eligible", "lgr/core.py:LGR.compute_label_disposition"]}
{"id": "C100", "title": "What a merged set is once written and read back", "statement": "Merging a set ends by writing the merged LGR and reading it back: this never fails, and what is returned has the merged metadata, references, code points, contexts, tags and variants, without the citations of references that are not defined; its code points are those of the LGRs of the set, and it says of labels what the LGRs of the set say.", "quantifier": "all sets of LGRs and metadata that can be written, all orders in which sets are enumerated", "why_tests_cant": "Whether anything is lost between the merged LGR and the one returned depends on every reference, tag, context and variant the set can contain; tests compare a few merged files.", "anchors": ["lgr/tools/merge_set.py:merge_lgr_set", "lgr/parser/xml_serializer.py:serialize_lgr_xml", "lgr/parser/xml_parser.py:XMLParser.parse_document", "lgr/parser/parser.py:LGRParser"]}
{"id": "C101", "title": "A parser may be asked for validation, Unicode version and parsing in any order", "statement": "One XML parser may be asked to validate its document, to tell its Unicode version and to parse it, in any order and any number of times: every answer is the one a new parser gives, the LGR parsed is the same with the same test results, to which only the result of the validation is added, and a document that cannot be parsed is refused in the same way.", "quantifier": "all documents, all sequences of requests, all sources that can be read again", "why_tests_cant": "The record of test results and the position in the source are shared by all requests, so what one leaves behind may change any later one; tests make one request, or two in a fixed order.", "anchors": ["lgr/parser/xml_parser.py:XMLParser.validate_document", "lgr/parser/xml_parser.py:XMLParser.unicode_version", "lgr/parser/xml_parser.py:XMLParser.parse_document", "lgr/parser/heuristic_parser.py:HeuristicParser", "lgr/parser/parser.py:LGRParser.unicode_database"]}
{"id": "C102", "title": "Two LGRs harmonized and then merged give one LGR with complete variants", "statement": "Two LGRs whose variants are symmetric and transitive can be harmonized, and the two harmonized LGRs can be merged exactly if they ask for the same context rules on the code points they share. The merged LGR is symmetric and transitive, relates two code points exactly if a chain of variants of the two LGRs leads from one to the other, and two labels have the same index in it exactly if they are as long and such chains lead from each character to the one at the same place. With a root zone LGR the same is true of any two LGRs, chains then counting the variants the root zone gives to code points of one of them.", "quantifier": "all pairs of LGRs built without forcing, with variants without context rules and different scripts; all orders in which sets are gone through; all labels", "why_tests_cant": "Harmonizing adds code points and variants of which the merge knows nothing; whether the union is complete depends on chains of any length through both LGRs. Tests harmonize or merge, on examples.", "anchors": ["lgr/tools/harmonize.py:harmonize", "lgr/tools/merge_set.py:merge_lgr_set", "lgr/tools/merge_set.py:merge_chars", "lgr/core.py:LGR.generate_index_label"]}
{"id": "C103", "title": "LGRs that meet at few code points are merged to one LGR with complete variants", "statement": "A set of LGRs with symmetric and transitive variants can be merged exactly if they ask for the same context rules on shared code points, and the merged LGR relates two code points exactly if a chain of variants of the LGRs leads from one to the other, provided that, going through the LGRs in the order of their scripts, a code point shared with those before is the only such one among its variants or one side knows all the variants of the other; in particular if all the LGRs have one code point in common at most. More exactly, each beginning of the set in that order is merged to one with complete variants if and only if the LGRs ask for the same rules and, of any two shared code points, where both sides relate them neither has a variant only the new LGR gives and another it lacks, where only those before relate them not both get new variants, and where only the new one does not both have variants it lacks. Two labels then have the same index exactly if such chains lead from each character to the one at the same place. If the LGRs give the same variants to the code points they share, which is if harmonizing any two of them adds nothing, the merge adds nothing, the labels of each LGR keep their index, and a label of the merged LGR collides with one of theirs exactly if it is a variant label of it there. If pairs of the LGRs are harmonized, in whatever order, until harmonizing any two adds nothing, which is reached whatever pairs are taken as long as each adds something, each LGR has the code points chains of the variants at the beginning join to its own, and all their variants, and the result is merged exactly if the LGRs ask for the same rules, to an LGR that relates exactly the code points such chains join, and gives two labels the same index exactly if such chains lead from each character to the one at the same place.", "quantifier": "all sets of LGRs, of any number, built without forcing, with variants without context rules and different scripts; all orders in which sets are gone through; all labels", "why_tests_cant": "Each LGR is merged into what all those before it have left; the chains run through any number of LGRs, in any order. Tests merge two small LGRs.", "anchors": ["lgr/tools/merge_set.py:merge_lgr_set", "lgr/tools/merge_set.py:merge_chars", "lgr/core.py:LGR.generate_index_label"]}
