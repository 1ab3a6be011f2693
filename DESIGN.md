# Formal model of gotemplate: design

The Go code in `/repo` (coveooss/gotemplate v3) is read as text and transcribed, function by
function, into total Gallina functions.  Theorems about these functions are stated against small
specifications that do not use the helpers of the model.

## 1. Layout

Every area has three kinds of files in `rocq/theories`:

* `XModel.v`   definitions only.  Every definition cites the file and lines it transcribes and the
  simplifications made.
* `XProofs.v`  the specification predicates and the proofs.
* `XProps.v`   the final theorems, each closed by `exact`, with `Print Assumptions` underneath and
  `Example`s showing a concrete case that meets the hypotheses.

Refuted statements are named `..._refuted` and give the witness; incomplete ones `..._partial`.

## 2. Representation choices

* A Go string is a list of bytes (`list ascii`).  The `strings` package functions the code uses are
  defined in `GoStr.v` (split, index, last index, trim, replace all, prefix, suffix, ...).  Rune level
  functions use an explicit UTF-8 decoder (`Utf8.v`).  `unicode.IsSpace` is modelled exactly;
  `IsPunct`, `IsLetter`, `IsPrint` are section parameters (theorems hold for all classifications).
* A Go `interface{}` is the inductive `value`: nil, booleans, sized integers, floats, strings (native
  and `collections.String`), native slices and maps, the list and dictionary implementations (base,
  json, yaml, hcl, xml), pointers, and opaque values.
* A Go map is an association list with distinct keys.  The order of the association list *is* the
  iteration order; theorems about determinism quantify over all permutations.
* Errors and panics are explicit: `Ok x | Err e | Panic e`.  Recursion on data uses structural
  recursion or a fuel that is shown sufficient; running out of fuel is a separate outcome, never a
  default value.
* Things outside of the code (floating point printing, rendering of the JSON/YAML/HCL/XML
  implementations, regexp matching of user patterns, the Go template engine, decoders, the file
  system primitives) are universally quantified parameters of the theorems: no property of them is
  assumed unless it appears as a hypothesis of the theorem.
* Sharing matters for C02, C06, C14, C15: these use a separate heap model (`Heap*.v`) with addresses
  for maps and backing arrays and slices made of (array, offset, length, capacity).
* Machine integers: `int`, `int64` are `Z` with explicit wrap-around where the code can overflow.
* float64 is `SpecFloat` (standard library, axiom free) where arithmetic matters (C34, C35).

## 3. Properties

The table covers the whole list, including work still planned.  The state of the development is:

<!-- status -->
* proved: C01, C02, C03, C04, C05, C06, C07, C08, C09, C10, C11, C12, C13, C14, C15, C16, C17, C18, C19, C20, C21, C22, C23, C24, C25, C26, C27, C28, C29, C30, C31, C32, C33, C34, C35, C36, C37, C38, C39, C40, C41, C42, C43, C44, C45, C46, C47, C48, C49, C50, C51, C52, C53, C54, C55, C56, C57, C58, C59, C60, C61, C62, C63, C64, C65, C66, C67, C68, C69, C70, C71, C72, C73, C74, C75, C76, C77, C78, C79, C80, C81, C82, C83, C84, C85, C86, C87, C88, C89, C90, C91, C92, C93, C94, C95, C96, C97, C98, C99, C100, C101, C102, C103, C104, C105, C106, C107, C108, C109, C110
<!-- /status -->

| id | what is modelled | how it is proved |
|----|------------------|------------------|
| C01 | `ListHelper.Add`, `BaseHelper.Convert` chain on pure values | equation with `app` and a relational specification of conversion |
| C02 | heap model of slices, `append` with arbitrary growth policy | separation: no cell visible from another slice is written; witness for the refutation |
| C03 | `SetIndex`, `GetIndexes` | pointwise specification with `nth_error` over Z indexes |
| C04 | `Contains`, `Find`, `fmt.Sprint` on values | equivalence with existential statements; exact list of positions |
| C05 | `Unique`, `Union`, `Intersect`, `Without` | membership and subsequence characterisation, idempotence |
| C06 | `Remove`, `Pop` (values), the index slice update (heap) | positions predicate; refutation of "arguments unchanged" |
| C07 | `Reverse`, `RemoveEmpty`, `RemoveNil` | equal to `rev` / `filter` with an independent predicate |
| C08 | `Clone`, `NewList` | equation with side condition, witness for the exception |
| C09 | `TryConvert`, `TryAsList`, `tryAsDictionary`, `NeedConversion` | inductive predicate `converted`; induction on value size |
| C10 | `KeysAsString` etc. with sorting | permutation invariance and `Sorted`, `NoDup` |
| C11 | `Set`, `Get`, `Has`, `Default`, `Flush`, `Pop`, `Omit` | lookup equations |
| C12 | `delete` with `mustExist` | exact characterisation of the state on failure |
| C13 | `deepMerge` | lookup specification by recursion on paths; permutation invariance |
| C14 | `deepMerge` on the heap | frame theorem for one source, witness for two |
| C15 | `Clone` on the heap | reachability/frame theorem, witness for lists |
| C16 | `Add`, `Transpose` | induction on operation sequences, inverse relation specification |
| C17 | `pick`, `pickv`, `pluck`, `omit` | equations and witnesses |
| C18 | `MarshalGo` without structures and pointers (`ConvModel.v`) | predicate `native`, fixed points, relation `same_content` before and after converting back |
| C19 | `transformElement`, `transform`, `flatten` of json, yaml, hcl (`ConvModel.v`, fuel shown sufficient) | relation `processed`; exactness of the integral float test; witnesses for null and 2^63 |
| C20 | `Protect` scanner (regexp transcribed to a scanner), `RestoreProtected` (`TextModel.v`) | round trip by induction on the scan when the text has no token look-alike; `C20_*_refuted` witnesses: index out of range (crash) and wrong text otherwise |
| C21 | `IndexAll` | induction with the leftmost occurrence specification |
| C22 | `GetContextAtPosition` | prefix/suffix and position bounds |
| C23 | `GetWordAtPosition` | maximality |
| C24 | `WrapString` | word sequence preserved; width bound by induction |
| C25 | `CenterString` | arithmetic |
| C26 | `Indent`, `UnIndent` | line-wise equations |
| C27 | `SplitLines`, `JoinLines`, `Split2`, `Concat` | split/join theory |
| C28 | `AddLineNumber` | line-wise equation |
| C29 | `slice`, `extract`, `rest`, `initial`, `safeIndex`, `reverseString` (`SliceModel.v`) | section predicate `between` on positions, `element` for single ones; positions and lengths up to 2^52 because the code clips through float `min`/`max`; reversal of well formed UTF-8 |
| C30 | `sliceMap`, `key`, `content` (`SliceModel.v`) | strictly sorted list of the keys in range, permutation invariance, pointwise extraction |
| C31 | `hex`, `decimal` (`MathModel.v`), `strconv.ParseInt` (`FloatModel.v`) | positional notation round trip, canonical literals with an independent `hex_value` |
| C32 | `bor`, `band`, `bxor`, `bclear` on scalars | `Z.testbit` for every bit, range, permutation of the arguments, errors |
| C33 | shifts, also on lists | `Z` arithmetic modulo 2^64 for all counts below 2^64 |
| C34 | `generateNumericArray` on binary64 floats, `%g` printing of the step, sprig `round` | exact sequence by induction on the number of terms, meaning of the sequence by membership; witnesses: endless loop (fixed point of the iteration), wrong values for a large step, rounding of fractional bounds |
| C35 | arithmetic through binary64 (`SpecFloat` of the standard library, no axioms) | exactness of each operation on integers below 2^53 from the rounding function (`FloatFacts.v`); witnesses above |
| C36 | `ConvertData`, `LoadData`, special texts and the `a = 1 b = 2` rewriting (`DecodeModel.v`), decoders are arbitrary functions | invariance under permutations of the registration; run relation over the decoders; witnesses for plain texts and partial targets |
| C37 | `ToBash`, `toBash`, `quote` (`BashModel.v`, with Go's `%q` in `QuoteModel.v`) | permutation invariance; execution by a small shell reader (`BashSpec.v`) gives the data back; witnesses of wrong quoting |
| C38 | `marshalHCL`, `id`, `singleMap`, `isArrayOfMap` (`HclModel.v`) | permutation invariance by induction on depth; read-back of compact renderings by a small parser (`HclSpec.v`); layout of indented documents and heredocs (`HclProofs2.v`); witnesses |
| C39 | `pause_lines`, `hide`, `revert` (`ProcessModel.v`) | sentinel substitution as a map on symbol lists (`SentinelFacts.v`): any insertion of sentinels is undone by the replacements in any order; line predicate `paused` over positions; witnesses for other delimiters and for lines with internal words |
| C40 | `prepare`, `attempt`, `process_content`, `process_with` (`ProcessModel.v`); the text/template engine, its error diagnosis, razor and the substitutions are arbitrary functions (`Class Engine`) | relation `ends_with` for the attempts, termination with enough stack when the attempts end; equations per outcome; witnesses |
| C41 | `is_strict` (`ProcessModel.v`) | equivalence with a list of 14 extensions, `extension` being a spec relation; witness for the unintended ones |
| C42 | `process_template`, `save` (`FilesModel.v`): the system calls that change files, on a map from places to files; folders, links, permissions and failing calls other than crashes are not modelled | `instant` relation: every state between two calls or during a write; places by the walks of C64; the generated name differs from the template by its length |
| C43 | two runs of `process_template` | the final map of C42 twice |
| C44 | `is_template`, `strip_ext`, `generated`, `result_name` (`TemplateModel.v`), target folder of C64 | equations, extension characterised by a spec relation; injectivity by the extension being unique; collision refuted |
| C45 | `process_all`, `process_templates` (`FilesModel.v`) | `chain` relation over the templates, induction on the list; witness for the option |
| C46 | `is_razor`, `is_code` (`TemplateModel.v`) | equivalences over a substring relation |
| C47 | `add_functions`, `add_again`, `make_table`, `get_functions`, `sprig_table` (`FuncsModel.v`); the order in which a map is visited is an argument, insertions during the loop included; the functions are an arbitrary type | what a table should contain is an inductive relation (`registered`) in `FuncsSpec.v`; invariant over the keys visited so far; refutations by computation |
| C48 | `setup`, `find_template`, `interpret`, `run` (`IncludeModel.v`, optimizedRunTemplate with its deferred functions, extra_runtime.go:436-535; GetNewContext) over the heap of `HeapModel.v`; text/template, razor and the file system are an arbitrary `Engine` whose templates are programs that read and write the heap and run other templates | `leads_to`, `cyclic`, `given`, `only`, `grows` in `IncludeSpec.v`; induction over the fuel and the program; a walk over a cyclic context has no end for every fuel; refutations by computation, the one that does not end for a symbolic fuel |
| C49 | `configure`, `define` (addAlias, extra_runtime.go:256-308, the visits of the map are an argument), `call_context`, `bind_arguments`, `call` (310-352) over the heap and the templates of `IncludeModel.v`; what the alias executes after the template (shell) is not modelled | `means`, `says`, `sound`, `first_of`, `bound`, `disjoint` in `AliasSpec.v`; invariant over the visited keys; merges in a dictionary nobody refers to; refutations by computation |
| C50 | `node_value`, `internal`, `operator_name` (template/razor_expr.go:16-176) on trees of the node kinds it knows; the Go parser that makes the trees and the replacement of the markers afterwards are not part of it | a reader of the argument grammar of text/template (`read_command`), the call tree of an expression (`words`), `fine`, `usable`, `supported` in `RazorExprSpec.v`; round trip through an inductive grammar, induction on trees; refutations by computation |
| C51 | `reserved`, `protect_words`, `restore_words`, `symbols`, `expand`, `finish` (template/razor_repl_expr.go:26-37, 69-85, 130-140, regexp expand), the map of words visited in the order of a list | `occurs`, `doubled` in `RazorWordsSpec.v`; texts as lists of characters and marks: every replacement turns characters into marks or marks into characters; refutations by computation |
| C52 | `protect_match`, `restore_match`, `protect_long`, `restore_long`, `open_document`, `close_document` (template/razor_repl_literal.go:9-26, razor.go:78-79, 143-145), the package variable as state; `job_step`, `job_call`, `run_jobs`: several documents with a schedule, the append and the reading of the length as separate steps; races below that grain (two appends that lose one string) are not part of it | texts with holes (`cell`, `shown`, `filled`), `multi_line`, `has_multi_line` in `LongStringSpec.v`; induction on texts, an invariant on the holes of all jobs for the interleavings; refutations by computation |
| C53 | `create_context` and its helpers (`ContextModel.v`); the file system, the decoders and the standard input are the class `Files`, the decoding of one argument as a map is the parameter `decode_map` | the sources of a command line (`command_line`) and what each of them gives (`gives`) are specified as relations in `ContextSpec.v`; induction over the sources; refutations by computation |
| C54 | `exclude`, `extend` (`CliModel.v`), path functions arbitrary | characterisation of trimming and splitting; filter equation; relation for failing tests |
| C55 | `find_files_max_depth` and its helpers (`SearchModel.v`), on a file system that is a tree of files, folders and links; Glob is the parameter `glob`; filepath.Walk and Abs are transcribed from the Go library | the sub-folders down to a depth are specified by their places in the tree (`sub_folders`), in walk order; induction over the tree; the loop by induction over the fuel |
| C56 | `opt_set`, `default_options`, heap of templates with `get_new_context`, `set_option` | invariant (no shared option set, ids in range) over all histories, then frame theorems |
| C57 | `IIf`, `Default`, `IfUndef` | case analysis |
| C58 | `set_constant`, `init_constants`, `context_constants` | induction over the constant list; refuted forms by computation |
| C59 | `InitReplacers`, `Substitute` (`CliModel.v`), regular expressions arbitrary | decomposition around the separator; witness for non ASCII separators |
| C60 | `repeat`, `MergeLists` | equations |
| C61 | `get`, `hasKey`, `dict` of extra_data.go | lookup equations, independence of the argument order |
| C62 | `contains`, `containsStrict` | equivalence with an existential statement, no panic |
| C63 | `globFunc` (`CliModel.v`), file system arbitrary | one equation per kind of argument |
| C64 | `clean`, `join2`, `rel`, `relative`, `get_target_file` (`PathModel.v`) | spec walks a path element by element from a place; stack invariant of `norm` |
| C65 | `template_merge` | frame theorem from C02's lookup; refutation. Template.Merge passes the function `key` as the key of Add, all else of the context is left |
| C66 | `new_delims` | equations over split |
| C67 | `print_result`, `is_terraform` (`FilesModel.v`) | equation; the conversion of an os.File to a string in line 56 panics by the Go specification, without further model of interfaces |
| C68 | `operator_words`, `replace_each` (template/razor_repl_expr.go:83-85), any order of the table | `operator_names`, `adjacent`, `spelled` (all words replaced at once) in `RazorWordsSpec.v`; the steps of the loop as a relation between lists of characters and marks, refutation by computation |
| C69 | `re`, `rmatch`, `find_submatch`: expressions of package regexp with the leftmost-first rule, on bytes (`ReModel.v`); `shebang`, `is_shebang_script`, `script_parts`, `is_command`, `command_from_file`, `command_from_string`, `save_temp` (utils/exec.go:13-110); exec.LookPath, filepath.Glob, the default shell and the name of the temporary file are parameters, files are readable and writable, arguments are texts | `script_text`, `bare_shebang`, `line_end` in `ScriptSpec.v`, decompositions of the text; the greedy stars on classes are runs tried from the longest (`desc`), the expression is taken apart from its end; refutations by computation |
| C70 | the syntax of package regexp as far as the table uses it: `parse_class`, `parse_re`, `compile` (RE2 syntax: groups with names, flags m and s, classes, repetitions), `search`, `replace_matches` (regexp.ReplaceAllFunc with empty matches) in `ReSyntaxModel.v`; the table `expressions`, the metaclasses, their expansion, the compiled `replacements` and `apply_razor` in `RazorTableModel.v` (template/razor.go); the class L beyond ASCII and the parsers of expressions, assignments and so on are parameters | `RazorRefSpec.v`: items (text, escape, reference with marks), their source and output, and the conditions as predicates on characters. An expression that matches eats a prefix (`eats`, `ReSound.v`); `needs` computes that an expression can only eat texts that hold one of some words, `dead` that it eats nothing from the states of an automaton; both are proved sound. The automaton of `RazorRefAuto.v` accepts all plain documents (`plain_fits`); 162 of the 165 replacements are then silent by computation and the three that remain (escape, reference, restore) are proved item by item (`RazorRefMain.v`) |
| C71 | as C70, with the delimiters as parameters | witness by computation, for all parameters |
| C72 | `assign_expression`, `parse_expression`, `auto_wrap`, `razor_parser` (`RazorAssignModel.v`: template/razor_repl_assign.go:18-99, razor_repl_expr.go:16-163, razor_repl_autowrap.go:9-28) over the table of C70 and the translation of trees of C50, C51, C68; go/parser is a parameter that reads a.b op (E) as expected, the maps are visited in any order, the table takes any function that does what the code does where it does not panic; messages are not modelled | `RazorAsgSpec.v`: targets, operators, expressions and what is written for them, without the table or regular expressions. The expression survives protection and restoring (`RazorAsgExpr.v`, `RazorAsgGo.v`, `RazorAsgVal.v`), the two assignment rows match each such line exactly with known groups (`RazorAsgMatch.v`, `RazorAsgDoc.v`), the other rows match nothing in the source before them or in the result after them (`RazorAsgFits.v`, `RazorAsgAuto.v`: an automaton of the lines, checked against the compiled rows by `dead`/`needs` of C70), the markers are removed at the end (`RazorAsgMain.v`). A parser with the property assumed is given in `RazorAsgSample.v`; the cases of TestAssign are computed |
| C73 | as C72 | witnesses by computation, with the parser of `RazorAsgSample.v` |
| C74 | `handle` (`ErrorModel.v`: template/template_error_handler.go:22-206, all of errorHandler.Handler apart from its traces), with the expressions of the file parsed and run by the engine of C70; `diagnosis` is the parameter `diagnose` of C40 made concrete. The colours and the reading of other files are parameters | `ErrorSpec.v`: the messages of text/template as texts (place, name, code, text; messages around them), lines, actions and the words that accept missing values. The match of each expression on such a message is proved exactly (`ErrorMatch*.v`), then the change of the line (`ErrorProofs*.v`); `C74_reported` combines it with the attempts of C40 |
| C75 | as C74, with the messages of text/template in the witnesses as they are documented | witnesses by computation |
| C76 | `rmatch`, `match_at`, `search`, `replace_matches`, `expand`, `named_group`, `compile` (`ReModel.v`, `ReSyntaxModel.v`, `RazorWordsModel.v`): the model of package regexp that runs the expressions of template/razor.go, utils and template/template_error_handler.go | `RegexSpec.v`: matches as a relation, the tries of a backtracking search in order, cutting a text in parts, templates and the abstract syntax with its text and meaning. Soundness and completeness by induction on the expression with a measure for repetitions, the order of tries against the continuation of the matcher, the parser against the printed syntax (`RegexProofs*.v`) |
| C77 | as C72: the table of C70 with the functions of C72 | `BlockSpec.v`: lines with commands and what is written for them, over the expressions of `RazorAsgSpec.v`. The rows 18 (loops), 35 (commands), 43 (else) and 44 (end) are shown to match each such line exactly with known groups (`BlockMatch*.v`, `BlockValue.v`, `BlockDoc.v`); the 40 rows before, between and after them match nothing in the document of their stage (`BlockAuto.v`, `BlockFits.v`, `BlockRows.v`: an automaton of the lines with the words of the commands still present, against the compiled rows); after row 44 the document is one of C72, the marks of functions in the actions of the blocks are removed at the end (`BlockMain*.v`) |
| C78 | as C77 | witnesses by computation, with the parser of `RazorAsgSample.v` |
| C79 | `id_text` (`IdModel.v`: template/extra_utils.go:177-196) over the model of package regexp (C76); fmt.Sprint of the replacement is an argument | `substituted`, `collapsed` in `IdSpec.v`: characters replaced one by one, runs joined from left to right, without regular expressions. The class is compiled and scanned in general (`char_scan`), the escaped replacement is shown to be the text of a syntax tree of C76 whose meaning is the replacement itself (`escaping`, `letters_alts`), runs are matched greedily (`star_runs`, `run_scan`) |
| C80 | as C79 | `go_identifier`: specification of Go; witnesses by computation, for every class of letters |
| C81 | `tpl_set`, `tpl_unset`, `try_dict`, `convert`, `need` (`SetModel.v`: template/extra_data.go:396-420, base_helper.go:62-255, dict_helper.go) on maps by reference with native maps and slices; pointers, structures and writes through shared slices are not modelled; the stack is bounded by `fuel`, any bound above the depth of the data will do | `denotes`: the data of a value whatever its types; `converted`: no native container inside; `unchanged`, `assigned`: what happens to the maps. Conversion by induction on the depth (`convert_ok`): it only adds maps, keeps the data and does nothing on converted data |
| C82 | as C81 | `lost`: the arguments that are copied; universal theorem `C82_lost`, witnesses by computation |
| C83 | `filter_functions`, `sections`, `short_rows`, `short_cell`, `detailed_names`, `detailed_description` (`HelpModel.v`: template/template_help.go:44-178) over the table of C47; strings.ToLower is a parameter that keeps blanks; titles, signatures and examples are not modelled | `asked`, `answers`, `ascending`, `stands_for` in `HelpSpec.v`; exchange of the two loops (`swap_loops`), arithmetic of positions |
| C84 | `run_program`, `build_options`, `exclude_until`, `protect_args`, `restore_templates` (`MainModel.v`: main.go:39-314, utilities.go:43-74); kingpin is not modelled (the flags are given), nor logs, colours, terraform fmt; createContext, NewTemplate, the search of files, filepath, doublestar and ProcessTemplates are parameters (several of them are modelled elsewhere: C45, C53) | `handed_over`, `looked_for`, `placed`, `left_over`, `read_as` in `MainSpec.v` describe the result by relations; order and membership of patterns through C54 |
| C85 | as C84, with `result_name` (C44) and `init_replacer` (C59) | `C85_overwrite` for all runs; witnesses by computation |
| C86 | `ellipsis`, `try_convert` (`EllModel.v`: template/extra_runtime.go:405-413, 542-579); running a template and reading data are parameters (class `Runner`), modelled elsewhere (C48, C36) | `applies f g` says that the engine calls f as g does, whatever the variables are named; the text of the call and its context by induction on the arguments |
| C87 | as C86 | an engine with print and a counter, witnesses by computation; `C87_nil` for all functions |
| C88 | `data_function` (`EllModel.v`: template/extra_data.go:440-504, for data and with a nil context) | case analysis |
| C89 | `ignore_one`, `ignore_all` (`IgnoreModel.v`: template/razor.go:19-31), on the engine of regular expressions (C76) | `hide`, `name_of`, `begins` in `IgnoreSpec.v` say where a delimiter is hidden; the match by `C76`'s relation, then induction on the text |
| C90 | as C89 | witnesses by computation |
| C91 | `env_ignored`, `append_ignored` (`IgnoreModel.v`: template/template.go:143-158, 378-380); ConvertData is a parameter | entries with their separators; each replacement turns one kind of separator |
| C92 | `base_substitutes`, `template_substitutes`, `substituted`, `raw_print`, `raw_list` (`RawModel.v`: template/template.go:132-141, template/add_funcs.go:52-55, template/extra_utils.go:210-219), with `init_replacers` (C59), `format_list` (C60) and the engine of regular expressions (C76); the printing of lists is not modelled, the documents are arbitrary | `document`, `shown` in `RawSpec.v`; the lazy repetitions end at the first closing mark because the next quote is there; copied text character by character |
| C93 | `run_command`, `exec_command` (`RunModel.v`: template/extra_runtime.go:357-403, 416-430) on `run` (C48) and on the choice of the command (C69); processes, files and ConvertData are parameters; standard input, logs and the removal of the temporary file are left out | `performed`, `for_command` in `RunSpec.v`; the name of a file always comes with its text after razor (induction on the retries) |
| C94 | `include` (`RunModel.v`: template/extra_runtime.go:191-197) and as C93 | `plain_text` in `RunSpec.v`; witnesses by computation with an engine with six files |
| C95 | `save`, `load` (`FsModel.v`: template/extra_os.go:193-236) over a model of files, folders, owners and permissions (no links, no groups, names followed lexically) | places and names as in C64 (`PathSpec.v`); the folders above a place by induction on it; bits of modes by `N.testbit` |
| C96 | `file_exists`, `is_dir`, … (`FsModel.v`: template/extra_os.go:109-173) | as C95; witnesses by computation |
| C97 | `extension_files`, `load_extensions`, `import_templates`, `register` (`ExtModel.v`: template/template.go:258-295, 332-338, and AddParseTree of text/template); what the processing of a file registers is arbitrary, the search is a parameter (C55) | `defs_in`, `chosen`, `orders` in `ExtSpec.v`; lookups in a table are a fold over the definitions of one name |
| C98 | `get_context`, `process_files` (`ExtModel.v`: template/template.go:192-218, template/template_handler.go:221-234) | as C97, induction on the files |
| C99 | the whole table (`RazorTableModel.v`), the engine of regular expressions (C76) and `parse_expression` (`RazorAssignModel.v`: template/razor_repl_expr.go:41-155), as for C72 and C77 | `call_line`, `call_source`, `call_output`, `call_ok` in `CallSpec.v`; an automaton reads the documents (`CallAuto.v`), 158 rows are shown not to match on it or to need a word that is missing (`CallRows.v`); rows 80, 142 and 150 are matched exactly (`CallMatch.v`) and their values are those of `parse_expression` (`CallValue.v`) |
| C100 | as C99 | witnesses, computed |
| C101 | `get_arguments`, `get_result`, `get_signature`, `listed_aliases` (`SigModel.v`: template/func_table.go:96-164, template/template_help.go:181-190); Go functions are their lists of types, colours are parameters | `parameter_name`, `parameter_type`, `written` in `SigSpec.v`; induction on the parameters |
| C102 | `get_categories` (`SigModel.v`: template/func_category.go:19-44) over the tables of C80 | `entry_group`, `ascending`; sorted lists with the same elements are equal |
| C103 | `tpl_find` (`UtilModel.v`: template/extra_data.go:612-637) on the comparisons and the printing of values of C01, C26 | positions by `nth_error`, occurrences by `occurs_at`; induction on the text |
| C104 | `assert_error`, `assert_warning` (`UtilModel.v`: template/extra_data.go:662-664, template/extra_runtime.go:632-654); the formatting of messages is a parameter | `zero_value` in `UtilSpec.v`; cases |
| C105 | `get_lorem_kind`, `lorem`, `default_shell`, `get_env` (`UtilModel.v`: utils/lorem.go, utils/exec.go:112-137, template/extra_utils.go:134-140); the generated texts and the search path are parameters | `names_kind` in `UtilSpec.v`; induction on the calls |
| C106 | `print_templates` (`ShowModel.v`: template/template_help.go:16-41, template/add_funcs.go:58-66) with `relative` (C64) | `listed`, `widest`, `line_of` in `ShowSpec.v`; induction on the sorted names |
| C107 | `hcl_unmarshal` (`ShowModel.v`: hcl/hcl.go:51-68); the decoder is a parameter, `transform` is that of C21 and total | `trimmed` (C59); cases |
| C108 | `index_expression` (`RazorAssignModel.v`: template/razor_repl_expr.go:163-171) on the engine of regular expressions (C76) | `bracketed`, `completed` in `IdxSpec.v`; each of the four replacements is a map on the pieces (`IdxProofs.v`) |
| C109 | `terraform_format` (`TfModel.v`: utils/terraform.go:23-50); the command, the text of several errors and the order of the map are parameters | `has_terraform`, `times`, `told` in `TfSpec.v`; induction on the folders |
| C110 | `marshal_struct`, `find_key`, `add_field`, `first_tag` (`StructModel.v`: collections/convert_data.go:206-265, 279-305); the values of the fields, the test for empty values and the visibility of fields are data of the fields | `tag_of`, `tagged`, `converted`, `gives`, `sane` in `StructSpec.v`; induction on the fields, the last one that gives an entry decides |

Findings that contradicted the first wording of a property: C02 (two Appends on a list with spare
capacity), C06 (the index slice of the caller is rewritten), C13 (merge is not associative), C14 (with
two sources, or with a target in which a dictionary appears twice, a source is modified), C15
(dictionaries in lists are shared; `{"a": [[1, 2]]}` loses a level), C20 (texts that look like a
protection token crash or are replaced), C22 (the section found may end before the position), C24
(lines may be one column too long), C25/C28 (widths beyond the addressable memory), C26 (a blank
first line is not unindented), C34 (endless loop for a step of 1e-07, wrong values for large integral
steps, rounded bounds), C35 (2^53 + 1 - 1), C29 (a reversed section that cuts a character), C19 (null and
{} are the same; 2^63 is read as -2^63), C37 (tabs and semicolons are not quoted, empty items vanish), C38 (null
without equal sign in compact documents), C44 (x.tf.gt and x.tf.template have the same result), C58 (constants
left out or lost), C64 (files outside of the source folder may share a result), C65 (Template.Merge merges nothing), C39
(paused lines are not restored when a delimiter shares letters with the internal words, or when the line
contains such a word), C40 (`!NO_VALUE!` is rewritten to `<no value>`; a text without code that was changed
by a substitution is reported unchanged), C41 (.t, .te, .temp, ... are strict),
C42 (in place with overwrite, a crash
loses the text; a file outside of the source folder, or folders written in two ways, are overwritten without
backup), C45 (the option stays on),
a variable of the command line whose value is null panics (C53_null_refuted), the text of a variable is replaced by the content of a file of that name (C53_text_refuted), and data with an empty name makes the context depend on the iteration order of a map (C53_order_refuted); the branch that sets ARGS (context.go:94 and 154) cannot be reached,
a link to the searched folder makes the search run for ever (C55_terminates_refuted), a sub-folder whose name is a malformed pattern ends the search silently (C55_all_found_refuted), and the results of the top folder are relative where those of its sub-folders are absolute (C55_ex); in the table of sprig functions all and withoutSprig share the alias without, so all may be bound to the function without and withoutSprig may be missing, depending on the iteration order of maps (C47_sprig_refuted), and registering a table again can give an alias taken over by a later function back to the first one (C47_again_refuted),
`include` does not restore the option missingkey, so that after an inner include a name of the context is no longer found (extra_runtime.go:504-510), the failed first attempt of `include` keeps its effects, razor is applied twice to a text whose first attempt fails, `include "inline"` runs the text run before, and an included template that includes twice with `.` overflows the stack, because the first call makes the outer context contain itself,
`func` with a setting under two names depends on the order of the map, a blank argument name panics, a single text argument is converted to data unless exactly one argument is declared, nested defaults of a function keep what its first call found in the context (extra_runtime.go:331, 342), and calling a function from an included template makes the outer context contain itself, after which every include overflows the stack,
a product whose right operand contains a star in a text becomes a power, a method of the current context called with arguments is not bracketed as an operand, calling the result of a call merges the arguments (C50),
the restoring of reserved words in razor expressions next to texts that look like part of a placeholder, dollar signs in literal texts of razor expressions, a global variable called slice in a razor expression, the order of the symbols and of the words of operators in razor expressions,
code fences after a single backtick in razor documents, raw strings that start like a placeholder in razor documents, copied placeholders, two razor documents processed at the same time,
a #! line with two words after the program is not taken for a script, the program can stand on a later line, arguments of a script given as text end up on its last line, an unknown command in a file is ignored in silence (C69),
a variable whose name starts with end or else cannot be referred to by razor, a full stop after a reference becomes a part of it, markers in the text are replaced (C70), with other right delimiters razor writes names of groups (C71),
an update without blanks changes another name, updates of names with a hyphen or of slice read something else, a target that starts with end closes a block, untranslatable expressions are written as they stand (C73),
the second error of a line is lost, an action without a blank after its delimiter is not found when its value is missing, an error at the start of a line panics, messages of two lines or that name a template are attributed to other lines or files, undefined variables damage longer names, the errors of a script are shown one line above (C75),
C78 (@elseif is accepted but gives no action of text/template; @end takes a word of the text),
`id` (template/extra_utils.go:177) does not return valid identifiers for texts that start with a digit, panics for the replacement `*` and returns wrong texts for `|`, `^`, `$` (C80),
`set` and `unset` silently do nothing on native maps that contain native data, on other native maps and on nil (C82),
the detailed help of an alias shows no description when the name of its function was taken by a later alias (C83),
`--overwrite` is documented as needed only when source and target are the same (main.go:74, 235), but the default is computed after the options have been built and has no effect (C85),
arguments of flags that start with `@` keep the internal mark `#!!` (C85), `--base` only works when it is spelled out in the arguments (C85),
`ellipsis` is not the call it is documented to be: results are read as data, run when they look like code, and nil panics (C87),
an ignored razor expression is put after the delimiter without grouping or quoting, so `foo|bar` and the delimiters `$` and `+` do not work (C90),
an empty text among raw texts leaves the internal marks `!Q!` in the result (C92),
a script that only uses razor is run without razor, and the second attempt of a template takes the text of a file for the name of another one (C94),
`isReadable` and `isWriteable` are about the owner of the file and not about the current user (C96),
which folder a template of an extension comes from is left to chance when several folders define it (C97),
a pair of parentheses in the text behind an expression is taken into it or prevents its translation, and @_(x) calls a function named _ (C100),
the aliases of functions defined by the user are hidden by the help (C101), `findStrict` in a text is not strict and the empty text is contained but never found (C103),
the error of `terraform fmt` is lost, as the list of the errors is wrapped instead of it (C109),
with a `key` option all the fields but the last are lost and a null field makes `MarshalGo` panic (C110).

## 4. Not expressible

Nothing in the list of properties was left out for being inexpressible.  Behaviour that is not modelled at
all: the Go `text/template` engine (a parameter of C40 and C74), the third-party decoders (encoding/json, yaml,
hcl, xml), most sprig functions, the AWS/git/network helpers, processes (a parameter of C93), logging and traces,
colours (parameters of C74), the parser of the command line (kingpin: the values of the flags are given to the
models of C84 and C85), go/parser (a parameter of C72), the class `\p{L}` beyond ASCII (a parameter of the
expressions).  The order in which a map is visited is any permutation.
The regular expressions of razor, scripts, error messages and of the substitutions for raw texts are parsed and
run by a model of package regexp (`ReModel.v`, `ReSyntaxModel.v`); those of other files are transcribed to scanners.

## 5. Trusted base

* The Coq 8.16.1 kernel (including `vm_compute`).
* `Print Assumptions` under each theorem: expected "Closed under the global context" for all of
  them; exceptions will be listed here.
* The transcription of the Go code into Gallina, by reading.  Each definition cites its source.
* Parameters of the model (`Class Env`, `NumEnv`, `PrintEnv`, `Engine`, decoders, regular expressions): the
  theorems hold for all of them.  What their types assume: decoders and printers are functions of their
  arguments; the template engine reads and changes only its own state, not the options of the template nor
  the files being processed.

## 6. Reading the mutation log

`seeded/LOG.jsonl` has one line per edit of the model tried in a scratch copy.  `theorems_failed` are the
theorems whose proof no longer goes through, directly or because a lemma they use fails; this does not
by itself show that each of them became false, as neighbouring theorems share lemmas.
`lemmas_failed` lists what failed first; an `Example` or `..._refuted` in it is a closed computation that
now gives another result.  A line marked INCONCLUSIVE is an edit that did not type-check and says nothing
about the theorems; a line marked WEAK broke only a lemma restating the definition.  Both kinds were
repeated in a better form.
