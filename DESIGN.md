# A Rocq model of icann/lgr-core — design

Properties are listed in `properties.jsonl` (C01…). This file says, for every
property, what is modelled, how it is (to be) proved, what is simplified, and
what the result rests on.  `MANIFEST.json` maps properties to theorem names.

## 1. Trusted base

* Coq 8.16.1's kernel (and `coqchk` for the final cross-check).
* `Print Assumptions` is printed under every theorem in the `Properties*.v`
  files; every one reports `Closed under the global context`: no axiom at all,
  neither ours nor the standard library's.
* The hand translation from Python to Gallina.  Every model definition cites
  the file and lines it models, and says where it simplifies.
* Libraries outside the repository (munidata/ICU Unicode data, the regex
  engine, lxml, language-tags) are not modelled; they appear as function
  arguments, universally quantified in the theorems.

## 2. Layout (`rocq/theories`)

* `Base.v` — exceptions as values, insertion-ordered dictionaries, ordering;
  `BaseFacts.v` its lemmas.
* `*Model.v` — the code, function by function; no proofs.
* `*Spec.v` — small independent specifications (relations, sets, graphs).
* `*Witness.v` — sample inputs for the `Example`s and the refutations.
* all other files — lemmas.
* `Properties*.v` — the theorems, each closed by `exact lemma`, followed by
  `Print Assumptions` and an `Example` showing the hypotheses are met by a
  concrete non-trivial state.

| model | code modelled | proofs | properties |
|---|---|---|---|
| `CharModel` | `lgr/char.py` | `RepProofs`, `RangeProofs`, `IterProofs`, `RepFinal`, `VariantProofs`, `VarSet*` | C01, C03–C06, C27, C42 |
| `RefModel` | `lgr/metadata.py` (ReferenceManager) | `RefProofs` | C12 |
| `LgrModel` | `lgr/core.py` (editing) | `Lgr*` | C02, C03, C08–C11, C13, C54 |
| `ActionModel` | `lgr/action.py` | `ActionProofs` | C15 |
| `LabelModel` | `lgr/core.py` (labels), `lgr/mixed_scripts_variant_filter.py` | `Label*` | C16–C23, C29, C43, C44 |
| `UtilsModel` | `lgr/utils.py`, `lgr/tools/utils.py` (text) | `UtilsProofs` | C07, C40 |
| `Rfc7940Model` | `lgr/rfc7940.py` | `Rfc7940Proofs` | C14 |
| `ValidateModel` | `lgr/validate/` | `Validate*`, `StatsProofs`, `StatsNamed`, `Checks*` | C24, C25, C35, C36, C45, C55 |
| `PopulateModel` | `lgr/populate/` | `Populate*` | C26 |
| `ClassModel` | `lgr/classes.py` | `Class*` | C30 |
| `RuleModel` | `lgr/rule.py`, `lgr/matcher.py` and a regular expression engine | `Rule*`, `RegexProofs` | C31, C32 |
| `MetaModel` | `lgr/metadata.py`, `lgr/validate/metadata.py` | `Meta*` | C39, C46 |
| `CompareModel` | `lgr/tools/compare/union.py`, `intersect.py`, `utils.py` | `Compare*` | C28 |
| `DiffModel` | `lgr/tools/compare/diff.py` | `Diff*` | C65, C66 |
| `RebuildModel` | `lgr/validate/rebuild_lgr.py`, `core.py` (cp_in_script) | `Rebuild*` | C67 |
| `GeneralModel` | `idn_review/whole_label_evaluation_rules.py` (general rules and their labels), core reports of `repertoire.py` and `variant_sets.py` | `General*` | C68 |
| `LangModel` | `idn_review/language_tag.py`, `utils.py` (tags, scripts), `metadata.py` (get_scripts), `memoize.py` | `Lang*` | C69, C70 |
| `SerialModel` | `lgr/parser/xml_parser.py`, `xml_serializer.py` (element trees) | `Serial*`, `Report*` | C33, C47, C64 |
| `CollisionModel` | `lgr/tools/diff_collisions.py` | `Collision*` | C34, C48 |
| `CollideModel` | `lgr/tools/diff_collisions.py:280-324, 349-381, 460-519` (the full report) | `Collide*` | C79 |
| `BasicRepModel` | `lgr/tools/diff_collisions.py:327-346, 460-471, 522-582` (the short report) | `BasicRep*` | C98 |
| `RfcToolModel` | `tools/rfc7940_validate.py:28-75`, `lgr/validate/__init__.py:57-64` (the tool, end to end) | `RfcTool*` | C80 |
| `CliModel` | `tools/lgr_validate.py`, `tools/lgr_cli.py:19-71, 124-126`, `lgr/tools/utils.py:450-493` (process_set, after reading) | `Cli*` | C81, C82 |
| `DumpModel` | `lgr/tools/utils.py:495-519` (LgrDumpTool), `tools/one_per_line_dump.py`, `tools/rfc4290_dump.py`, `tools/rfc3743_dump.py`, `tools/make_idna_repertoire.py:23-65` | `Dump*`, `ForceProofs` | C83, C84 |
| `PopToolModel` | `tools/lgr_populate_variants.py`, `tools/xml_dump.py`, `lgr/tools/utils.py:351-364,417-430` | `PopTool*` | C85 |
| `WholeModel` | `lgr/tools/idn_review/review.py`, `summary.py`, `classes.py:85-118`, `variant_sets.py:285-288,383,431-451`, `actions.py:70-80` | `Whole*` | C86 |
| `CollToolModel` | `tools/lgr_collision.py:18-84`, `lgr/tools/utils.py:373-397,442-448` and the arguments of all tools | `CollTool*` | C87 |
| `CmpToolModel` | `tools/lgr_compare.py:19-80`, `lgr/tools/utils.py:239-276,351-363` | `CmpTool*` | C88 |
| `HarmToolModel` | `tools/lgr_harmonize:19-56`, `lgr/parser/parser.py:25-28`, `lgr/tools/harmonize.py:38-40` | `HarmTool*` | C89 |
| `RevToolModel` | `tools/lgr_idn_table_review.py:24-61`, `lgr/tools/idn_review/header.py`, `review.py:34-39` | `RevTool*` | C90 |
| `DiffRepModel` | `lgr/tools/diff_collisions.py:147-205,385-457` line by line, `tools/lgr_diff_collisions.py`; rule logs and format dropped | `DiffRep*` | C92 |
| `AnnToolModel` | `tools/lgr_annotate.py`, `tools/lgr_merge_set.py`, `lgr/tools/utils.py:450-493`, with the files; FileNotFoundError is KeyErrorStr | `AnnTool*` | C94 |
| `HarmonizeModel` | `lgr/tools/harmonize.py` | `Harmonize*` | C37 |
| `MergeModel` | `lgr/tools/merge_set.py` | `Merge*` | C38 |
| `MergeModel` | `lgr/tools/merge_set.py:317-492` | `MergeTurn*`, `MergeGlue*`, `MeetRel`, `MergeFit*`, `MergeSame*`, `MergeRound*`, `MergeRun*`, `MergeSettle`, `MergeOutcome` | C103 |
| `HarmonizeModel`, `MergeModel` | `lgr/tools/harmonize.py`, `lgr/tools/merge_set.py:317-492` one after the other | `HarmMerge*`, `HarmRoot*` | C102 |
| `MergeReadModel` | `lgr/tools/merge_set.py:452-492` (writing and reading back), `lgr/parser/parser.py:20` | `MergeRead*` | C100 |
| `MergeRulesModel` | `lgr/tools/merge_set.py:215-314, 474-492` | `MergeRules*` | C96 |
| `MergeMetaModel` | `lgr/tools/merge_set.py:36-132, 452-472` | `MergeMeta*` | C71 |
| `RulesXmlModel` | `lgr/parser/xml_parser.py:330-545, 570-592`, `xml_serializer.py:173-185` (rules section) | `RulesXml*` | C72 |
| `DocModel` | `lgr/parser/xml_parser.py:154-171, 491-516`, `xml_serializer.py:19-39` (whole documents), `core.py:186-200`, `parser.py:39-48` (setting a database) | `Ready*`, `Doc*`, `Again*`, `Late*` | C76, C77, C78 |
| `ParserModel` | `lgr/parser/xml_parser.py:109-171`, `lgr/parser/heuristic_parser.py:19-62,99-107` (a document found to be XML), `lgr/parser/parser.py:20-48,68-87` | `Parser*` | C101 |
| `EvalModel` | `lgr/core.py:1023-1427, 1514-1950`, `lgr/action.py:56-138` with the LGR's own rules (lookups, errors, cached patterns) | `Eval*` | C73, C74 |
| `ReviewModel` | `lgr/tools/idn_review/` | `Review*` | C41, C49–C53 |
| `ChecksModel` | `lgr/validate/miscellaneous.py`, `lgr/tools/idna2008_compliance.py`, root zone script of a label | `Checks*` | C55–C57 |
| `AnnotateModel` | `lgr/tools/annotate.py`, reading of label lists | `Annotate*` | C58, C59 |
| `TableModel` | `lgr/parser/line_parser.py`, `rfc4290_parser.py`, `rfc3743_parser.py`, `heuristic_parser.py` | `Table*` | C60–C63 |

## 3. Modelling conventions

* Code points are `N`; code point sequences (`tuple`/`list`) are `list N`.
* Names, tags, variant types, reference ids are Coq strings.
* Python exceptions are values of `exn`; an operation on mutable state returns
  `state * res A`, so the state *after a raise* is visible and partial
  mutation can be stated and refuted.
* Python dicts are insertion-ordered association lists; `sorted`/`list.sort`
  is a stable insertion sort.
* Loops that are not structurally recursive use fuel; running out of fuel is a
  distinguished error which a theorem excludes.
* Whether a context/whole-label rule matches is a total oracle
  `rule name -> label -> anchor -> index -> bool` in the label algorithms.  The
  translation of rules and classes to patterns is modelled separately.
* Not modelled: logging (text), object identity and aliasing of Python lists
  (shared `references`/`tags` lists between the members of a range), memory
  and performance, command line tools, web API and HTML reports.

## 4. Per property

| id | modelled | how proved |
|---|---|---|
| C01 | `Repertoire` of `lgr/char.py` entirely | invariant over all operations, finite-map laws |
| C02 | `LGR.add_cp/del_cp/add_variant/del_variant` | case analysis on each raise point, state equality |
| C03 | `LGR.add_range`, `_insert_list`, `Repertoire.add_range` | induction on the range; refutations for the partial paths |
| C04 | `del_range` | proved under "all members present"; general claim refuted by a history |
| C05 | `_check_range_overlap` | characterised exactly; general claim refuted (containing range) |
| C06 | `Repertoire.__iter__` | induction on sorted keys; completeness refuted for stale ranges |
| C07 | `collapse_codepoints` | induction on the sorted list |
| C08 | `add_cp` | decision list equivalence with an independent list of checks |
| C09 | `check_range` | induction on the range |
| C10 | `expand_range(s)` | induction; refuted when a member was deleted |
| C11 | tag classes | invariant on `add_cp/del_cp`; refuted for `del_range`, `del_tag` |
| C12 | `ReferenceManager` | invariant over histories |
| C13 | `del_reference` | refuted for duplicates/undefined, proved otherwise |
| C14 | `LGRFormatTestResults` | list induction, permutation invariance |
| C15 | `Action.apply`, `_apply_actions`, default actions | list induction |
| C16,C17 | `_test_preliminary_eligibility` | fuelled loop, soundness vs segmentation relation; completeness refuted / proved for single cp |
| C18 | `_generate_label_partitions` | two-way inclusion + NoDup |
| C19 | index label | soundness, minimality; equivalence for single-cp symmetric/transitive LGRs; refuted in general |
| C20,C21 | `_generate_label_variants` | two-way inclusion with an inductive relation |
| C22 | `compute_label_disposition` | list invariants |
| C23 | `estimate_variant_number` | counting |
| C24,C25 | checks in `lgr/validate` | reflection into first-order statements |
| C26 | `populate_lgr` | measure, closure containment; idempotent: the last pass leaves a rule of the same kind both ways, and such LGRs are the fixed points |
| C27 | `get_variant_sets` | reachability |
| C28 | union/intersection | set laws; refuted parts recorded |
| C29 | mixed script filter | set reasoning |
| C30 | `lgr/classes.py` | denotation in sets by structural induction |
| C31 | pattern cache | refuted by a history; proved for unedited LGRs |
| C32 | matchers → regex AST | semantics equivalence |
| C33 | serializer/parser of the data section (element trees, not bytes) | round trip; refuted for stale ranges |
| C34 | collisions | list reasoning |
| C35 | `validate_lgr` | refuted by history |
| C36 | statistics | counting; refuted for stale ranges |
| C37 | harmonize | on top of populate |
| C38 | merge_set | chars and references; success: one at most speaks of a shared code point, or their variants are nested and then exactly when the rules are the same; for two members whose variants cross, the exact condition is found by following which pairs the second member joins (each must be joined once); for any number by induction over the members in script order, with the code points and variants there so far as the invariant (C38_in_turn) |
| C39 | metadata | string predicates |
| C40 | hexadecimal text | positional notation induction |
| C41 | review summary | max over lists |
| C42 | `CharBase` variants | invariant |
| C43 | mixed script filter, same-script side | list reasoning; refuted with Common code points |
| C44 | disposition listing with several derivations | refuted: the first derivation decides |
| C45 | conditional variant check | reflection |
| C46 | metadata check | reflection |
| C47 | XML loading with force | invariant along the elements |
| C48 | comparison of label lists under two LGRs | over any index and listing functions satisfying what C19/C22 give |
| C49–C53 | IDN table review: repertoire, classes, actions, variants, self review, rules | case analysis, set reasoning |
| C54 | variant types recorded | invariant over histories |
| C55–C57 | miscellaneous checks, IDNA 2008 report, script of a label | reflection |
| C58, C59 | label lists and their annotation | per-line relation, list induction |
| C60–C63 | plain text tables | scanners characterised against shapes of lines, then induction over lines with a history of "events" |
| C64 | what the XML reader records | invariant along the elements |
| C65, C66 | comparison of LGRs and sets | the output as data, for every enumeration order of Python's sets |
| C67 | rebuilding an LGR | the issues of every entry, for every database, validating repertoire and script assignment |
| C68 | general rules, core reports | applicability as reflection; the verdict by induction over the labels tried; the label tables checked against independent shapes |
| C69 | language tag report | the verdict as an inductive relation over what the registry says |
| C70 | scripts and their cache | invariant of the cache over histories |
| C71 | metadata of a merged set | folds against first occurrences, greatest and least; stable sort |
| C72 | rules section of documents | inductive reading of element trees (`class_of`, `rule_of`, `action_of`) against the reader, induction on trees and sections; writing reorders, so tables only grow |
| C73 | evaluation with rules | state-and-exception copies of the label algorithms; simulation by the oracle versions (`computes`), uniform depth for the finite table, verdicts from C32; Hoare-style `safe` for errors and caches |
| C74 | summary | induction on the counter |
| C75 | only entries count | the entries of one code point that are prefixes of one string have distinct lengths, so the sorted lists agree whatever the order of insertion; relational lemma per algorithm |
| C76 | documents ready to evaluate | numbering of rule objects and cached patterns as invariants along the elements, relative to the final tables; patterns are stable when tables grow; a pattern shows that references resolve |
| C77 | documents read back and stable | what reading leaves is always writable (invariant along the elements); reading is insensitive to the order of code points in classes; the order of the code points written is determined by first code point, length and order of addition, which reading keeps |
| C78 | database set later | data read under one database is read under another that admits every code point (simulation of the readers of elements); rules that resolve against the final tables resolve against the tables at the time they are read, so their patterns are computed; caches make no difference to labels |
| C79 | collision report | the table of indexes from C34, with the variants kept for the dump; each kind of line is cut out of the report, and the header a line stands under is the last one before it; the entries of an index are a permutation of what is listed for each of its labels, so that the counts agree |
| C80 | verdict of the RFC 7940 tool | what reading and each check record is one list of reports; each test of the policy is recorded in known places only, so that the verdict of C14 reads off the faults of the document; the LGR was filled with forced additions, which leave out what IDNA does not allow |
| C81 | label validation tool | the answers are an inductive relation over the set, the label and their indexes, shown to admit one answer only; the table of shared indexes (C34) has as many keys as there are shared indexes, from which each answer follows |
| C82 | label testing tool | the lines follow the listing of C22; generated types are never None, so that none of the joins fails; the number of the action against the list of own and default actions |
| C83 | tables printed as documents | what reading a table gives satisfies the conditions of the round trip (C33): an invariant over the lines; then C60 to C62 and the round trip compose.  Registry: an invariant over the records, with the exact outcome of add_cp and add_range |
| C84 | tolerant reading | each function that consults force gives the same without it if it succeeds; the lemmas compose along the parser |
| C85 | populate tool | populating is a sequence of unforced edits, so it keeps the invariants of a document that was read; the round trip (C77) is generalised to another repertoire with the same tags; with C26 and C84 |
| C86 | whole review | each part through C41 (summary); every variant of either LGR has a row (the variant sets cover all mappings between different code points), and a matching row is backed by the same variants on both sides; the checks by an invariant on the LGR copied from the set (same targets, no rules) and C25 |
| C87 | collision tool | invariant on the table of indexes (the last reference label); variants through C20, C21; simple LGRs through C18 |
| C88 | comparison tool | the result is built by unforced edits, so C33's round trip applies; metadata field by field |
| C89 | harmonization tool | harmonizing is a sequence of unforced edits, which keep what the strict reader guarantees, so C77's second reading applies; code points of the results come from the inputs |
| C90 | review tool | walk over the pairs; the last pair with a name decides its file; strings around the underscore |
| C91 | verdicts before and after completing | the cut and the types of mappings to itself transfer between repertoires; edits of populate never touch a mapping of a code point to itself |
| C92 | the comparison report and its tool | each section from the tables of C48 and C79; the file with its lines rearranged links to the collision report of one LGR |
| C93 | hiding mixed scripts, exactly | the runs of the generator under a filter are characterized by the derivations of C14 with conditions on scripts; the loop over the label by the count of known code points |
| C94 | the annotation and merge tools | the store of files is followed through the opens; C59 gives the lines; bytes_repr has no end of line |
| C95 | collisions in combined LGRs | the combined LGR has the form in which the index label is the least of each class (C19); agreement of C37, targets of C38 give the classes |
| C96 | meaning of rules and classes in a merged LGR | a relation "the same but for the names" under which RFC 7940 meanings (C30, C32) are equal, shown to hold between the tables of a member and of the merged LGR |
| C97 | labels of unions and intersections | the longest-match outcome of C16 over the entries of C28; the intersection of complete variant sets is complete, so indices are class minima |
| C98 | short collision report | the pairs of C34 carried to the lines; sections as ranks of lines, sorted |
| C99 | labels of merged sets | the longest-match outcome of C16 over the entries of C38; the list of merged actions split member by member, defaults last |
| C100 | merged sets read back | forced reading of a written LGR, element by element: duplicates and undefined references never stop it; an invariant of the merge gives writable names, tags and ids |
| C101 | parser objects | reading from any recorded results gives the same LGR and adds the same reports (by induction on the document); reports applied twice change nothing; invariant over the history of requests |
| C102 | harmonized, then merged | harmonizing makes the variants of shared code points agree, so C38_agreeing_exact applies; both LGRs have the variants of the union of chains (C89), so the merged one has exactly these; with a root zone LGR it is three harmonizations of two (C37_root_in_steps), so the same lemmas apply to LGRs that need not be complete |
| C103 | sets merged to complete variants | C38_in_turn says what is related after each member; the invariant is that code points are related exactly if chains of the members so far lead from one to the other, and a member that meets them as stated keeps it; the labels follow as in C95. `MeetRel` has the same for two relations, with the condition that is also needed (C103_fitted_exact, C103_pair_exact). LGRs with the same variants on shared code points are glued, every chain being one step; index labels then agree as in C95 (C103_same_labels). Harmonizing a pair keeps which code points chains of all the members join, so a set harmonized in pairs until nothing is added is merged to exactly those (C103_harmonized); a pair that differs gains a variant among finitely many possible, so this point is reached (C103_settles), whatever pairs are taken (C103_rounds_end), and each LGR is then the same (C103_outcome); the labels follow again (C103_harmonized_labels) |

## 5. Findings

Where the faithful model violates a property, a theorem `…_refuted` exhibits a
concrete counterexample, and a `…_partial` theorem gives the part that holds.
In terms of the code:

Repertoire and LGR editing
* C03: with an overridden validating repertoire, or when invalid code points
  are allowed, `add_range` fails after some code points were added.
* C04, C06, C10, C33, C36: deleting one member of a range leaves the range in
  `_ranges`: `del_range` then fails half-way, iteration skips or repeats,
  `expand_ranges` fails, statistics count it, serialisation brings it back.
* C05: a new range that strictly contains an old one is not seen to overlap.
* C11: deleting a tagged range leaves its code points in the tag class; forced
  tags on sequences or repeated tags break the mirror.
* C13: a reference forced twice on an entry survives its deletion.
* C54: types of deleted variants stay listed.
* `_check_convert_cp(assert_in_script=True)` always raises with a database.

Labels
* C17: the greedy longest match refuses labels made of repertoire entries.
* C19: with sequences the index is not minimal; without symmetry variants may
  have other indices.
* C21, C23: a sequence without variants is never substituted piecewise; the
  estimate is not a bound with sequences, nor when mixed scripts are hidden.
* C29, C43: the first piece of a multi code point variant may mix scripts;
  Common code points hide every variant.
* C44: an allocatable derivation is dropped when a blocked one came first.

Validation
* C24, C25: strict symmetry is recorded as passed although it was not tested
  or failed; a variant out of the repertoire fails transitivity unrecorded.
* C26: populating may fail on range members, lose types or not mirror rules.
* C35: the module-level list of checks grows with every call.
* C39, C46: invalid languages slip past `set_languages` (removal while
  iterating); Unicode versions are matched as a prefix.
* C55: short-circuit hides data faults; LGRs of ranges never record the test.

Classes and rules
* C30, C32: a redefined class or rule may refer to itself and loops.
* C31: the pattern cache survives edits.
* C32: an empty class or choice matches wrongly, so does the place holder of an
  absent anchor; look-behind beyond 63 is cut.

Tools
* C28: union and intersection lose variants, contexts, types, action order,
  metadata; renamed rules dangle or collide.
* C34, C48: a pair is announced twice; a cached label collides with itself.
* C37: harmonisation needs symmetric, transitive inputs to agree; it works on
  copies, which have no database, so invalid code points are taken over.
* C38: references of shared code points are not translated; disjoint members
  may not merge; same-named context rules keep only the later content; a
  variant with a context rule without name may stop the merge.
* C41, C51–C53: summary rows hide results; variant set pairing misses sets;
  KeyError for an asymmetric reference; a range's rules are missed.
* C56, C57: the compliant count, and the script of labels led by Common.
* C59: the first rule is never shown; with a set, rules of the wrong LGR.
* C60–C63: trailing comments are read; an RFC 4290/3743 row that cannot be
  read gives its variants to an earlier row or ends on UnboundLocalError;
  two-digit references are lost; adjacent code points are glued; tables
  without `;` are taken for the wrong format.
* C33, C47, C64: tags with blanks split; a repeated range raises IndexError
  through force; ranges are left out of the order tests.
* C65, C66: comparing expands the ranges of the arguments; missing versions
  are reported against themselves; contextual rules, citations, contents of
  actions and rules are not compared; LGRs without language are skipped.

* C67: `rebuild_lgr` discards the LGR it builds and answers True whatever it
  reports; it fails for an LGR without Unicode database, for a validating
  repertoire with another database, and once a range member was deleted and
  added again; deleted range members are still checked.

* C68: a label that cannot be spelled stops the check and hides the verdict (an
  Arabic table with European digits only never has the rule on initial digits);
  Georgian (`ka`) is tried with Kannada labels and Achinese (`ace`) with Chinese
  ones; `und-Kore` and `und-Hani` with none; two sets of digits are seen only
  from the eleventh digit on.
* C69: two private use tags are an "Exact match"; the verdict depends on which
  side a tag is; three letter codes are replaced only before a dash, and only for
  the exact match.

Read but not modelled as theorems: `precalculate_patterns` recursion is dead code;
`_fast_iter` compares an element with a tag; `read_labels` reports the text
"None" for valid labels.
* C71: merging a set takes the greatest Unicode version as a *text*, starting
  from the default 6.3.0: a set all of whose LGRs say 11.0.0 merges into an LGR
  for 6.3.0. Members of the same script merge differently in another order; a
  set without any version or description gets an empty version and an empty
  HTML description; disjoint periods give a start after the end.
* C72: with a Unicode database, a dangling class reference in a rule stops the
  reading even with `force`, because patterns are computed at once; an unknown
  element inside a class or a combination crashes the reader (`UnboundLocalError`
  or `TypeError`) instead of being reported; classes are written before rules, so
  redefining a class after a rule that refers to it changes what the rule matches
  once written and read; an element without a namespace is passed over when read
  but, written below the default namespace, counts when read again.  Counts other
  than "n", "n+" and "n:m" are taken as they are into the pattern, which then does
  not compile; the model keeps their text (`COther`).
* C73: an entry, variant or action may name a rule that does not exist; labels
  that need it cannot be evaluated (KeyError, `C73_missing_context_refuted`,
  `C73_missing_action`).  After such an error a label tested with `collect_log`
  leaves its log handler installed (read, not modelled).  A rule may have the
  empty name; when it refuses an entry the report of its name fails (TypeError,
  `core.py:1582`, `C73_empty_name_refuted`).
* C75: an entry may have two variants with the same target (with different
  contexts); when both apply, the one added first decides the disposition of the
  variant label (`C75_order_of_variants_refuted`).
* C76: `<meta>` is optional in `resources/lgr.rng`, and the reader means to
  supply it, but compares an element with a name (`xml_parser.py:497`): there is
  then no LGR to fill, and reading any code point is an AttributeError
  (`C76_without_meta_refuted`).  When a class is defined twice, rules between the
  definitions mean one thing if the document was read with a database and another
  if the database is given later (`C76_redefined_refuted`).
* C77: an empty plain-text description in a CDATA section is read, but written as
  an empty element, on which the reader fails with an AttributeError
  (`C77_empty_description_refuted`); of "\r\r\n" in a description each
  reading takes away a carriage return (`C77_carriage_return_refuted`).
* C78: setting `unicode_database` does not check the code points already in the
  LGR: those the new database does not allow stay in it, and get_char,
  get_variants, expand_ranges and others raise CharInvalidIdnaProperty for them
  (`C78_unchecked_refuted`).  With force, a document is read to different code
  points with and without a database (`C78_forced_refuted`).
* C79: with show_dump, the variants of labels are entries of the table when the
  collisions are written, so that two labels with different indexes are reported
  as a collision if one is a variant of the other, but not the other way round
  (`C79_dump_pairs_refuted`), and the report stops with InvalidSymmetry after the
  collisions if a label of an index lacks a variant of another one
  (`C79_dump_stops_refuted`).  A collision with a TLD that is itself in the list
  is reported (twice) as a collision "within the input file", never as one with
  the existing TLDs (`C79_tld_refuted`).  If labels only collide with TLDs, the
  report ends with "No collision in the list of labels" (`C79_none`).
* C80: rfc7940_validate fails every document if no schema is given and in test
  mode, as a test that was not made counts as failed
  (`C80_all_fail_refuted`); also every document without a language, although
  RFC 7940 makes it optional (`C80_language_refuted`), and every document whose
  repertoire has only ranges (`C80_verdict`, fa_only_ranges).  A code point that IDNA does not allow fails
  the document as a <char>, but passes in a <range>, where it is dropped
  (`C80_range_refuted`).  An empty <version> raises TypeError
  (`C80_version_refuted`).
* C81: lgr_validate -g takes the items of the summary for tuples of five, but they
  have six: ValueError for every eligible label (`C81_variants_refuted`).  The
  message for a set label that is not in the LGR of the script has one value too
  few for its format: TypeError, and no input label is treated
  (`C81_set_label_refuted`).  An empty input line ends the run
  (`C81_empty_line_refuted`).  Input lines are taken as they are whereas the set
  labels are decoded, so that an A-label of the set is "not eligible" as input
  (`C81_a_label_refuted`).  No "valid code points" are shown for a label that is
  refused by an action (`C81_refused`).
* C82: lgr_cli tests `action_idx > len(lgr.actions)`: the first default action
  (number len(lgr.actions)) is shown as "Action[n]", which the LGR does not have
  (`C82_action_refuted`); a listed label that is not in the LGR is shown as
  "due to Action[-1]" (`C82_nontrivial`).
* C83: rfc3743_dump prints the date of the version line as it is, "YYYYMMDD",
  which is not a date of RFC 7940: strict reading refuses the document for every
  table with a version line (`C83_version_refuted`).  A row that cites a reference
  twice is also printed as a document that strict reading refuses
  (`C83_cited_twice_refuted`).
* C84: tolerant reading drops a citation of an undefined reference without report;
  the RFC 7940 tool then says PASS for a document that strict reading refuses
  (`C84_undefined_reference_refuted`).  A repeated citation and an invalid date
  are kept (`C84_repeated_reference_refuted`, `C84_date_refuted`).
* C85: xml_dump never declares the option `libs` that reading a document consults:
  it stops with AttributeError for every document (`C85_dump_refuted`).
* C86: a review can be a match in all parts although labels get other
  dispositions, since the summary leaves out the order of the actions
  (`C86_order_refuted`), the symmetry and transitivity checks
  (`C86_checks_refuted`) and the general rules (`C86_general_refuted`); variants of a
  code point to itself are not reviewed (`C86_reflexive_refuted`).
* C86: a table with two languages does not match itself
  (`C86_languages_refuted`); a variant of the reference that is a sequence outside
  its repertoire stops the review with NotInLGR (`C86_sequence_refuted`); a
  sequence the table has is said to be possibly missing when it has no variant there
  (`C86_missing_refuted`).  The classes made for tags never appear in the report,
  though the code sorts and renames them.
* C87: lgr_collision declares the option `-l` twice, so it stops with ArgumentError
  before doing anything (`C87_starts_refuted`).  Its work, if it started: a label
  outside of the LGR ends the run (`C87_outside_refuted`); one reference label is named
  even if others collide (`C87_named_refuted`); the reference label, which is the one
  taken, is missing among the variants to block if it ends with a code point without
  variants (`C87_taken_refuted`); empty lines collide (`C87_empty_refuted`).
* C88: `merge_lgrs` returns None for a member without LGR and all its callers unpack two
  values: TypeError (`C88_member_refuted`); it only logs what the schema says, so a file
  refused alone is taken as member of a set (`C88_schema_refuted`); `-g` changes nothing
  for sets.  After a union in which an action has two texts, the next intersection gives
  actions the texts of others (`C88_union_again_refuted`).
* C89: `tools/lgr_harmonize` names its results after the base names of the inputs: for two
  files of the same name in different directories the second result overwrites the first
  (`C89_same_name_refuted`).  A root zone the schema refuses is None, which is also what
  the tool uses for no root zone: it is left out (`C89_root_ignored_refuted`).  An LGR the
  schema refuses is None too and makes `harmonize` fail (`C89_refused_refuted`).
* C90: `tools/lgr_idn_table_review.py` joins two names with an underscore: different pairs can
  share a file (`C90_clash_refuted`), and so can tables of the same name in different
  directories (`C90_same_name_refuted`); the last one written stays.  A file the schema
  refuses is logged as skipped but appended as None: the tool always fails (`C90_refused`),
  and leaves an empty file named after None (`C90_skipped_refuted`).
* C91: populating adds the targets that are outside of the LGR as ordinary entries, so labels
  made of them become eligible (`C91_new_refuted`; `C91_new_is_valid`: always).  Harmonizing
  gives code points taken over a mapping to themselves of type `out-of-repertoire`, but no
  default action looks at that type, and no action is added: under the default actions each
  is a valid label of an LGR that did not have it (`C91_foreign_refuted`,
  `C91_foreign_is_valid`).
* C92: the collisions are printed after the comparison, and one label whose variants are not
  listed symmetrically by one of the LGRs raises InvalidSymmetry there, so that the report
  shows no collision although both LGRs' collisions were found (`C92_lost_refuted`,
  `C92_stops`).  A label in neither LGR is said not to be in the first one only, below the
  heading of the comparison.
* C93: hiding drops the mapping of a first code point of script Common (a digit) to itself and
  keeps the code point without its type, so a label that is blocked becomes valid and its
  variants allocatable (`C93_verdict_refuted`).  `current_label` is not shortened for the
  inner code points of a sequence, so the scripts offered by later positions are not found
  and variant labels wholly in another script are hidden (`C93_sequence_refuted`).  Han then
  Latin is shown while Latin then Han is hidden (`C93_order_refuted`).
* C94: annotating a label file in place (`-o` the label file) empties it: the output is opened
  for writing before the first label is read (`C94_in_place`, `C94_in_place_refuted`).  The
  merge tool prints `b'...'`, the repr of the bytes, for every set: no XML parser accepts it
  (`C94_merge_output_refuted`).  A file of the set without metadata ends the tools with a
  TypeError instead of the message meant for it (`C94_member_fails`).
* C95: merging complete LGRs can lose a collision: with A = {1,2},{3,4} and B = {2,3}, the labels
  3 and 4, variants in A, get the index labels 1 and 2 in the merged LGR
  (`C95_merged_refuted`); LGRs that were not transitive before harmonizing give one label two
  index labels (`C95_harmonized_refuted`).
* C96: the copy made of a context rule shared by two scripts (`merge_set.py:396-400`) has its
  references prefixed with both scripts, names nothing has: matching raises a RuleError
  (`C96_shared_rule_dangles_refuted`), or, if it refers to a tag, the context is silently lost
  (`C96_shared_rule_forgets_tag_refuted`). References to classes with a colon in their name
  (`C96_colon_class_refuted`) and to rules beginning like `leading-combining-mark`
  (`C96_name_like_common_refuted`) dangle; the common rule is the first member's
  (`C96_common_rule_refuted`); tags with a colon are pooled (`C96_colon_tag_refuted`); of a rule
  defined twice the merge takes the first definition, the LGR the last
  (`C96_redefined_rule_refuted`).
* C97: an LGR intersected or united with itself accepts labels it refuses, the context rules of
  common code points being dropped (`C97_intersection_context_refuted`,
  `C97_union_context_refuted`); sequences added by the other LGR make longest match refuse labels
  that were accepted (`C97_union_sequences_refuted`, `C97_intersection_longest_refuted`,
  `C97_intersection_sequences_refuted`); labels that collide in the first LGR do not in its union
  with another (`C97_union_collisions_refuted`), though they do with the arguments swapped.
* C98: `basic_collision` reads the TLD list before it looks whether there is one
  (`diff_collisions.py:548, 554`): without TLDs it raises a TypeError
  (`C98_without_tlds_refuted`). Read, not modelled: the messages about wrong TLD lines (469) have
  no newline at their end, and the copy of the labels for annotations (536) cannot be made of an
  open file.
* C99: in the LGR merged from a set the actions of one script decide on labels of another
  (`merge_set.py:188-212`): a label valid in its LGR becomes invalid
  (`C99_other_actions_refuted`); all variants become blocked (373, 438), also those from a code point
  to itself by which an LGR marks code points outside of its repertoire, so that a label that is
  invalid in its LGR is eligible in the merged one (`C99_own_type_refuted`); a default action
  written before others is dropped, which changes verdicts even when a single LGR is merged
  (`C99_default_first_refuted`).
* C100: a code point shared by LGRs of a set gets the reference ids of the later LGR as they are, not
  as they were mapped (`merge_set.py:343`); those the merged LGR does not define are silently dropped
  when it is read back (`C100_citation_lost_refuted`), though the reference itself is there. When one
  LGR gives a code point a `when` and another a `not-when` rule, the result has both on one entry,
  and a strict reader refuses what the merge returned (`C100_strictly_readable_refuted`).
* C101: `validate_document` reads an open file to its end and does not set it back
  (`xml_parser.py:113-135`; the two other requests do), so parsing after validating fails
  (`C101_stream_refuted`). `HeuristicParser.unicode_version` fails until the document has been
  parsed or validated (`heuristic_parser.py:29-30`, `C101_heuristic_version_refuted`), and the
  parser it finds is not given its Unicode database (`heuristic_parser.py:22-26`,
  `C101_heuristic_database_refuted`): no code point is checked while reading.
* C102: a code point that harmonization adds has itself as variant, of type
  "out-of-repertoire" (`harmonize.py:65-67,77-79`), and the merge makes every variant blocked: if the
  other LGR has the code point, labels with it are blocked in the merged LGR, though valid in
  that LGR and in the two merged as they are (`C102_valid_label_refuted`). Its comment becomes
  "Out-of-repertoire" as well.
* C38, C102: two LGRs that give a code point the same variant under a context rule cannot be
  merged, even if they are the same LGR in two scripts: the copied variant has the renamed rule,
  so the two differ, and joining them adds the variant to itself twice
  (`merge_set.py:442-449`, `C38_conditional_variant_stops`, `C102_context_refuted`).
* C38: two members that relate two shared code points crosswise (1~3, 2~4 in one, 1~4, 2~3
  in the other, both symmetric and transitive) cannot be merged: 3 and 4 are joined because
  of 1 and again because of 2, and the second time the variant is there already
  (`C38_pair_exact` says when this happens, `C38_pair_stops_witness`).
* C38: which variants the merged LGR has depends on the names of the scripts, as members are
  taken in that order and only the pairs that meet at the code point at hand are joined: with
  1~2, 2~3 and 3~4 in three complete members, 1 and 4 are related only if the members come
  in an order in which each shares a code point with those before it
  (`merge_set.py:442-449`, `C38_script_names_refuted`; `C38_in_turn` says what is related).
* C103: three LGRs with 1~2, 3~4 and 2~3, in that order of scripts: the merge adds 1~3 and
  2~4, not 1~4; the index of 4 is then 2 and that of its variant 2 is 1
  (`merge_set.py:442-449`, `C103_chains_refuted`, `C103_result_witness`).
* C103: harmonizing works on two LGRs at a time; with 1~2, 3~4 and 2~3, harmonizing the first
  with the second, then with the third, and the second with the third leaves the first without
  1~4, which the second has (`harmonize.py:15-92`, `C103_one_round_refuted`).

## 6. Coverage

Modelled: see the table of section 2; it includes every tool of `tools/`.  Not
modelled: the web API, the exact spacing of reports where only their lines are
modelled, log messages, XML text (the element tree is the input), Unicode data
(any function), IDNA encoding (any function), the `language-tags` library (any
function), validation against the RelaxNG schema (any verdict), and a few
accessors without branches (`LGR.get_variant`, `Metadata.set_validity_start`).

Seeded bugs: `seeded/LOG.jsonl` lists the edits made to the model, the lemmas
and theorems that failed, and the theorems tightened when none failed.
