{"id": "C01", "title": "Append and Prepend are concatenation", "statement": "Append returns a list holding exactly the old elements followed by the new ones, Prepend the new ones followed by the old ones; every stored element is the converted form of the argument, elements already converted are stored unchanged, and lengths add up.", "quantifier": "for all lists, all argument lists, all five list implementations", "why_tests_cant": "The fixtures append a handful of scalars to three lists; nested native maps and slices, nil elements and every length combination are never enumerated.", "anchors": ["collections/implementation/list_helper.go: Add", "collections/implementation/base_helper.go: Convert, TryAsList", "collections/implementation/generic.go: Append, Prepend"]}
{"id": "C02", "title": "Lists obtained earlier survive a later Append", "statement": "A list value keeps its elements when another Append is made on the list it came from. This holds when the base list has no spare capacity; it is false in general: two Appends on the same base list with spare capacity overwrite each other's elements.", "quantifier": "for all heaps, slices (offset, length, capacity), appended values and growth policies", "why_tests_cant": "Aliasing only shows when the runtime happens to leave spare capacity, which unit tests with literal lists never do.", "anchors": ["collections/implementation/list_helper.go: Add", "collections/implementation/base_helper.go: CreateList, NewList", "collections/implementation/generic.go: Append"]}
{"id": "C03", "title": "Indexed access contract", "statement": "Set(i,v) with i>=0 followed by Get(i) yields the converted v, leaves all other positions alone and pads with nil when i is beyond the end; a negative i is an error and changes nothing. Get counts negative indexes from the end, returns nil out of bounds, and with several indexes returns the list of the individual results.", "quantifier": "for all lists, all indexes, all values", "why_tests_cant": "Tests check four or five concrete indexes; off-by-one behaviour at every boundary and the non-interference with other positions need a proof.", "anchors": ["collections/implementation/list_helper.go: SetIndex, GetIndexes", "collections/implementation/generic.go: Get, Set, First, Last"]}
{"id": "C04", "title": "Contains and Find are exact", "statement": "Contains(vs...) is true exactly when the list is non-empty and each v has an element with the same printed representation; Find returns exactly the ascending positions of the elements with that representation; the strict variants use interface equality and panic only when two values of the same non-comparable type are compared.", "quantifier": "for all lists and all searched values", "why_tests_cant": "Completeness (no position missed) and exactness over arbitrary nested values cannot be sampled.", "anchors": ["collections/implementation/list_helper.go: Contains, Find", "collections/implementation/generic.go: Contains, ContainsStrict, Find, FindStrict, Has"]}
{"id": "C05", "title": "Unique, Union, Intersect and Without obey the set laws", "statement": "On lists whose elements are already converted: Unique keeps the first occurrence of every printed representation in order, has no duplicates and is idempotent; Union contains exactly the members of both operands; Intersect is the duplicate-free subsequence of members present in the arguments; Without keeps exactly the members absent from the arguments, in order.", "quantifier": "for all lists, all argument lists", "why_tests_cant": "Set laws quantify over all pairs of lists including duplicates and values equal only as strings.", "anchors": ["collections/implementation/list_helper.go: Unique, Intersect, Without", "collections/implementation/generic.go: Union"]}
{"id": "C06", "title": "Remove and Pop take out exactly the requested positions", "statement": "Remove(is...) returns the elements whose position is not designated (negative positions count from the end), in order; Pop returns the designated values and the list without them, and without argument takes the last element. Out-of-range positions remove nothing. The index slice supplied by the caller is modified in place: negative entries are rewritten.", "quantifier": "for all lists and index lists", "why_tests_cant": "Repeated, negative and out-of-range index combinations grow exponentially; the mutation of the caller's slice is invisible to tests passing literals.", "anchors": ["collections/implementation/list_helper.go: Remove", "collections/implementation/generic.go: Pop, Remove"]}
{"id": "C07", "title": "Reverse, RemoveEmpty and RemoveNil", "statement": "Reverse returns the converted elements in opposite order with the same length and is an involution; RemoveNil keeps exactly the non-nil elements and RemoveEmpty exactly the elements that are neither nil, nor empty lists, nor print as the empty string, both in order and both idempotent.", "quantifier": "for all lists", "why_tests_cant": "Involution and order preservation are statements about every list; the RemoveEmpty test in the repository actually exercises Reverse.", "anchors": ["collections/implementation/list_helper.go: Reverse, RemoveEmpty, RemoveNil"]}
{"id": "C08", "title": "Cloning a list preserves its elements, except singleton lists of lists", "statement": "Clone returns a list with the same elements for every list whose elements are converted, unless the list has exactly one element and that element is itself a list: then the clone is that inner list. NewList flattens a single slice argument in the same way.", "quantifier": "for all lists", "why_tests_cant": "The exception needs one particular shape ([[...]]) that no test builds, and equality for all other shapes is universal.", "anchors": ["collections/implementation/list_helper.go: Clone", "collections/implementation/base_helper.go: NewList"]}
{"id": "C09", "title": "Everything stored is converted", "statement": "After AsList, AsDictionary, Append, Set or Add on pointer-free data no native map or slice remains at any depth; conversion is idempotent, keeps scalars, keeps the printed content of the structure, and never reports that a further conversion is needed.", "quantifier": "for all values, at all depths", "why_tests_cant": "Depth and mixture of native and converted containers are unbounded.", "anchors": ["collections/implementation/base_helper.go: TryConvert, TryAsList, tryAsDictionary, NeedConversion", "collections/implementation/dict_helper.go: Set, Add", "collections/implementation/list_helper.go: Add, SetIndex"]}
{"id": "C10", "title": "Dictionary output does not depend on map iteration order", "statement": "KeysAsString, GetKeys, GetValues, String and Transpose give the same result for every iteration order of the underlying map; keys are sorted bytewise without duplicates and values follow their keys.", "quantifier": "for all dictionaries and all permutations of their entries", "why_tests_cant": "Go randomizes map order; a test run sees one order.", "anchors": ["collections/implementation/dict_helper.go: KeysAsString, GetKeys, GetValues, String, Transpose", "collections/string_array.go: Sorted"]}
{"id": "C11", "title": "Dictionary update laws", "statement": "Get after Set returns the converted value, other keys are untouched; Has is true exactly when the dictionary is non-empty and holds every key; Default returns the entry or the default; Flush removes exactly the given keys (all keys when none is given); Pop returns the values and removes them; Omit returns the dictionary without the keys. Keys are compared by printed representation.", "quantifier": "for all dictionaries, keys and values", "why_tests_cant": "Algebraic laws over arbitrary key sets, including keys of different types with the same printed form.", "anchors": ["collections/implementation/dict_helper.go: Set, Get, Has, Default, Flush, Pop, Omit, delete"]}
{"id": "C12", "title": "Delete stops at the first missing key", "statement": "Delete succeeds and removes all keys when all are present and distinct; otherwise it reports the first missing key and has already removed the keys before it: deletion is not atomic, and deleting the same key twice in one call fails.", "quantifier": "for all dictionaries and key lists", "why_tests_cant": "Atomicity is a statement about every failure position.", "anchors": ["collections/implementation/dict_helper.go: Delete, delete"]}
{"id": "C13", "title": "Merge gives priority to the earlier dictionary, recursively", "statement": "After target.Merge(sources...): a key present only in sources takes its value from the first source that has it; a key whose target and source values are both dictionaries is merged recursively; any other key of the target keeps its value. The result does not depend on map iteration order, and merging with itself or with an empty dictionary changes nothing. Merging is associative in content as long as no dictionary of the first operand meets a non-dictionary in the second, and not in general.", "quantifier": "for all dictionaries, any number of sources, all nesting depths and iteration orders", "why_tests_cant": "Precedence over arbitrary nesting and number of sources is unbounded; tests compare merge with merge.", "anchors": ["collections/implementation/dict_helper.go: Merge, deepMerge", "utils/reflect.go: MergeDictionaries"]}
{"id": "C14", "title": "Merge and its source dictionaries", "statement": "Merging one source never modifies that source when target and source share no map. With two or more sources it can: a nested dictionary taken from the first source is shared with the target, so the second source's entries are written into the first source.", "quantifier": "for all heaps and dictionary graphs", "why_tests_cant": "Tests never look at the sources after the merge; aliasing needs a heap model.", "anchors": ["collections/implementation/dict_helper.go: Merge, deepMerge", "template/extra_data.go: merge"]}
{"id": "C15", "title": "Clone of a dictionary is isolated", "statement": "A cloned dictionary shares no map with the original: changing the clone, or any dictionary nested in it through dictionaries, leaves the original unchanged. Dictionaries inside lists are shared between the clone and the original.", "quantifier": "for all heaps, all dictionary graphs, all later updates", "why_tests_cant": "Isolation quantifies over every later mutation and every path into the structure.", "anchors": ["collections/implementation/dict_helper.go: Clone", "collections/implementation/list_helper.go: Clone"]}
{"id": "C16", "title": "Add accumulates values", "statement": "Adding n values under a fresh key with scalar values leaves the single value when n=1 and the list of the n values in insertion order otherwise; Transpose maps the printed form of every value (or list element) to the key or the ordered list of keys that held it, and nothing else. An existing nil entry loses the nil.", "quantifier": "for all dictionaries and value sequences", "why_tests_cant": "Accumulation is an induction over operation sequences.", "anchors": ["collections/implementation/dict_helper.go: Add, Transpose"]}
{"id": "C17", "title": "pick, pickv and pluck", "statement": "pick returns exactly the requested keys, with nil for the missing ones. pickv returns an error when the dictionary has other keys, and otherwise should return the picked dictionary; pluck should return the values of the key in the dictionaries that have it. The last two are false: pickv returns a single entry named after the printed key list with a nil value, pluck always returns an empty list.", "quantifier": "for all dictionaries, keys and lists of dictionaries", "why_tests_cant": "There is no test of pickv and pluck; the defect is in every input.", "anchors": ["template/extra_data.go: pick, pickv, pluck, omit"]}
{"id": "C18", "title": "Native conversion round trip", "statement": "Native yields only strings, numbers, booleans, nil, []interface{} and map[string]interface{} at every depth, is idempotent, and converting the result back gives a structure with the same content.", "quantifier": "for all pointer-free and struct-free values, at all depths", "why_tests_cant": "Unbounded nesting.", "anchors": ["collections/convert_data.go: MarshalGo", "collections/implementation/generic.go: Native", "collections/implementation/base_helper.go: TryConvert"]}
{"id": "C19", "title": "Decoded documents: null entries and integers", "statement": "The post-processing of decoded JSON, YAML and HCL turns every container into the implementation's own container and keeps scalars, except that every null (entry, list element or whole document) becomes an empty dictionary; JSON floats with an integral value within the int64 range become ints of the same value.", "quantifier": "for all decoded documents, at all depths", "why_tests_cant": "Unbounded documents; the null case is not tested.", "anchors": ["json/json.go: transformElement", "yaml/yaml.go: transformElement", "hcl/utilities.go: transformElement, flatten"]}
{"id": "C20", "title": "Protected strings are restored", "statement": "Restoring a protected text gives the original text back, unless the original contains something that looks like a protection token after a backtick. Each token stands for one closed string literal of the text, in order, and no closed literal remains. A token in an unclosed backtick string either crashes the restoration or is replaced by the wrong string (witnesses).", "quantifier": "for all texts", "why_tests_cant": "Any byte sequence is a possible text; interaction of escapes, quotes and tokens is combinatorial.", "anchors": ["collections/string.go: Protect, RestoreProtected"]}
{"id": "C21", "title": "IndexAll finds all non-overlapping occurrences", "statement": "IndexAll returns exactly the positions found by scanning from the left without overlap: each is an occurrence, they are ascending and at least one length apart, and no occurrence exists in the gaps. An empty needle or text gives nothing.", "quantifier": "for all texts and needles", "why_tests_cant": "Completeness is universal.", "anchors": ["collections/string.go: IndexAll"]}
{"id": "C22", "title": "The enclosing context is a well delimited section", "statement": "When GetContextAtPosition returns a section, the section is in the text at the returned position, starts with the left delimiter (entirely before the position asked for) and ends with the right one; for out of range positions it returns nothing. With the closest delimiters around the position and no left delimiter between them, that section is returned. With one byte delimiters the section either contains the position and no inner left delimiter, or it is balanced. It does not always contain the position (witness).", "quantifier": "for all texts, positions and delimiters", "why_tests_cant": "Nested delimiters of arbitrary shape.", "anchors": ["collections/string.go: GetContextAtPosition, SelectContext"]}
{"id": "C23", "title": "The word at a position is the maximal run of word characters", "statement": "GetWordAtPosition returns the unique longest section around the position without word break; on a break it returns the empty word at that position, outside the text (\"\", -1).", "quantifier": "for all texts, positions, accepted characters and character classifications", "why_tests_cant": "Maximality is universal.", "anchors": ["collections/string.go: GetWordAtPosition, SelectWord"]}
{"id": "C24", "title": "Wrapping keeps the words", "statement": "Wrapping changes only white space: the sequence of words of the result is the sequence of words of the text, lines made of white space become empty lines, the words of a line are cut greedily into groups, a group of more than one word is at most one column wider than the requested width, and the indentation of a line is put before its last group, where it is not counted (witness).", "quantifier": "for all texts and widths", "why_tests_cant": "Every text and width; the one-column excess is visible in the tests' expected values but its bound is not.", "anchors": ["collections/string_util.go: WrapString"]}
{"id": "C25", "title": "Centering width", "statement": "CenterString returns the text unchanged when it is longer than the width; otherwise, as long as at most two million spaces are needed, it is the text surrounded by spaces, has exactly the requested number of characters, and the right padding is equal to the left one or one larger. Beyond that fmt prints an error mark instead (witness).", "quantifier": "for all texts and widths", "why_tests_cant": "All parities and all texts including multi-byte characters.", "anchors": ["collections/string_util.go: CenterString"]}
{"id": "C26", "title": "Indent and UnIndent", "statement": "Indent prefixes every line, keeps the number of lines and composes by concatenating prefixes. UnIndent removes one common white space prefix, that of the first non-blank line, from all lines after the leading blank ones, or returns the text unchanged; it undoes Indent with a white space prefix on a multi-line text whose first line starts with a non-blank character, but not when the first line is blank (witness). It never changes the number of lines nor the non-blank part of a line.", "quantifier": "for all texts and indents", "why_tests_cant": "Blank lines, mixed tabs and spaces in any combination.", "anchors": ["collections/string_util.go: Indent, IndentN, UnIndent"]}
{"id": "C27", "title": "Line and field splitting round trips", "statement": "JoinLines(SplitLines(s)) is s without one trailing newline, and SplitLines(JoinLines(ls)) is ls for newline-free lines not ending with an empty one; Split2 cuts at the first separator: left+sep+right is the text when the separator occurs and left is the text otherwise; strings split and joined with any separator are unchanged.", "quantifier": "for all texts and separators", "why_tests_cant": "Separators at the edges, repeated separators, empty texts.", "anchors": ["collections/string_util.go: SplitLines, JoinLines, Split2, Concat"]}
{"id": "C28", "title": "Line numbering", "statement": "AddLineNumber with a width between one and one million puts on every line its 1-based number, right aligned on at least that width, then a space and the unchanged line; the number of lines is unchanged. Wider widths print an error mark (witness).", "quantifier": "for all texts and widths", "why_tests_cant": "All line counts, including those where the number is wider than the column.", "anchors": ["collections/string.go: AddLineNumber"]}
{"id": "C29", "title": "slice and extract on lists and strings", "statement": "slice(l,b,e) is the section between the two positions (negative positions count from one after the end), reversed when e is before b, clipped to the list; extract returns the elements at the positions in the given order, negative ones from the end. rest is the list without its first element and initial without its last one, also on empty lists. Invalid positions yield an error, never a wrong element: sections entirely before the beginning are errors for lists and strings, sections beyond the end are empty for lists but errors for strings.", "quantifier": "for all lists, strings and positions", "why_tests_cant": "All boundary combinations of two signed positions.", "anchors": ["template/slice.go: sliceInternal, sliceList, selectElement, safeIndex, reverseString", "template/extra_data.go: rest, initial"]}
{"id": "C30", "title": "slice on dictionaries is a key range", "statement": "slice(d,k1,k2) returns the values of exactly the keys between k1 and k2 inclusive in ascending key order, in descending order when k2 is before k1; extract returns one value per requested key, nil when missing; the result does not depend on map order.", "quantifier": "for all dictionaries and keys", "why_tests_cant": "All key sets and orders.", "anchors": ["template/slice.go: sliceMap", "template/extra_data.go: key, content"]}
{"id": "C31", "title": "hex and decimal are inverse", "statement": "decimal(hex(n)) is n for every int64 n, negative ones included, and hex(decimal(s)) is s for every canonical upper case hexadecimal literal in range.", "quantifier": "for all int64 values and all canonical literals", "why_tests_cant": "2^64 inputs.", "anchors": ["template/math_bits.go: hex, decimal"]}
{"id": "C32", "title": "Bitwise operators", "statement": "bor, band, bxor and bclear of any number of int64 arguments are the bitwise or, and, xor and and-not of all of them: bit i of the result depends only on bit i of the arguments; the result is an int64; or/and/xor do not depend on argument order.", "quantifier": "for all int64 argument lists of length at least two", "why_tests_cant": "2^128 pairs.", "anchors": ["template/math_bits.go: bitwiseOr, bitwiseAnd, bitwiseXor, bitwiseClear"]}
{"id": "C33", "title": "Shifts", "statement": "lshift(a,n) is a*2^n reduced to 64 bits two's complement and rshift(a,n) is the floor of a/2^n, for every unsigned count including those of 64 and more; rshift undoes lshift when no bit is lost.", "quantifier": "for all int64 values and uint64 counts", "why_tests_cant": "2^128 pairs.", "anchors": ["template/math_bits.go: leftShift, rightShift"]}
{"id": "C34", "title": "Numeric sequences", "statement": "to(n), until(n), to(a,b), until(a,b) and the three argument forms with a non-zero integral step whose printed form has no dot (every integer below a million) produce exactly the arithmetic sequence from start towards stop, including stop for to and excluding it for until, and terminate; a zero step is an error. Termination is false for steps whose shortest decimal form has an exponent and no fraction, such as 1e-07. Exactness is false for large integral steps: the digits and exponent after the dot of 3.53050952070144e+14 are taken as a number of decimals and the values become fractional. Without step, fractional bounds are rounded.", "quantifier": "for all integral bounds and steps of magnitude at most 2^52", "why_tests_cant": "Termination and exact content for every bound.", "anchors": ["template/math_utilities.go: generateNumericArray", "template/math_base.go"]}
{"id": "C35", "title": "Integers go through floating point", "statement": "add, subtract, multiply, divide, modulo, average, min and max return the exact integer result when operands, result and all intermediate results are integers of magnitude at most 2^53, whatever the type of the operands (integers or numeric texts, arguments or a list); division by zero is an error. With three operands, operands and result below 2^53 are not enough; beyond 2^53 sums and max can be wrong and results beyond the int64 range are not the mathematical value.", "quantifier": "for all integer operands", "why_tests_cant": "The failing region is far from the values used in tests.", "anchors": ["template/math_base.go: add, subtract, multiply, divide, modulo", "template/math_stats.go: average, min, max", "template/math_utilities.go: simplify, compareNumerics, toFloat"]}
{"id": "C36", "title": "Choice of the data format", "statement": "ConvertData tries JSON, then HCL, then YAML (the registered decoders in the order of their names) whatever the registration order; the first decoder that accepts the text decides, except when it gives the text back unchanged into an interface and the text holds one of = : { }, which is an error; errors of all decoders are reported together when none accepts; the fallback for 'a = 1 b = 2' texts is attempted at most once, only when the target holds nothing or a list, so decoding always terminates.", "quantifier": "for all texts, all decoder behaviours, all registration orders", "why_tests_cant": "Decoders are arbitrary functions of the text.", "anchors": ["collections/convert_data.go: ConvertData, TypeConverters"]}
{"id": "C37", "title": "Bash rendering of data", "statement": "ToBash lists dictionary entries in key order independently of map iteration order. Evaluating the rendering of a dictionary by the shell gives every variable its text, array or associative array when keys are names and texts contain nothing special (blanks, brackets and parentheses are quoted). It does not in general: texts with a tab, a semicolon, a quote or backquote but no blank are not quoted; a text with a blank and a dollar is expanded; empty list items disappear; a newline is rendered as the two characters \\n.", "quantifier": "for all data structures and iteration orders", "why_tests_cant": "Arbitrary strings and nesting.", "anchors": ["collections/convert_data.go: ToBash, toBash, quote"]}
{"id": "C38", "title": "HCL rendering is deterministic", "statement": "Rendering a value to HCL gives the same text for every iteration order of its maps, in every mode, prefix and indent. The compact rendering can be read back and denotes the rendered value, for data without floats, lists of one map, marker texts and improper keys. A list with a single map is rendered as the map. Keys made of identifier characters are rendered bare, others as literals; keys starting with '[', '\\', ']', '^' or '`' are rendered bare too although they are not identifiers; a string value containing the internal marker is corrupted; in the compact document mode a null value has no equal sign.", "quantifier": "for all data structures, prefixes, indents and iteration orders", "why_tests_cant": "Go randomizes map order; the marker and the character range defect need particular inputs.", "anchors": ["hcl/utilities.go: marshalHCL, singleMap, isArrayOfMap, id", "hcl/hcl.go: Marshal, MarshalIndent, MarshalTFVars"]}
{"id": "C39", "title": "Paused sections are left alone", "statement": "Lines between a pause and a resume marker contain no delimiter while the template runs (code delimiters and razor character for gotemplate-pause!, the razor character for razor-pause!), other lines are not altered, and after the rendering every line without an internal word is restored byte for byte; restoring works line by line. A document whose code is all paused is returned as it is, unchanged, whatever the engine. Delimiters must not share letters with the internal words (the default ones do not); with others, or in lines holding an internal word, the property is false.", "quantifier": "for all documents and all interleavings of pause and resume markers", "why_tests_cant": "State machine over arbitrary line sequences.", "anchors": ["template/template_handler.go: processContentInternal", "template/template.go: pauseGoTemplate, pauseRazor"]}
{"id": "C40", "title": "Failed rendering leaves the source alone", "statement": "When the rendering meets errors, they are all part of the reported error if the file is strict; otherwise the result is the source, reported unchanged and without error. When the first attempt succeeds, an undefined value in the output is an error unless undefined values are accepted; texts of the source that look like one are put aside and restored unless they contain _VALUE (a literal !NO_VALUE! becomes <no value>). A text without code is returned after substitutions and reported unchanged, also when the substitutions changed it. Only scripts starting with #! change an option, the output to standard output. The attempts end with enough stack whenever the engine and its diagnosis do.", "quantifier": "for all texts, options, file names and engine behaviours", "why_tests_cant": "The engine is an arbitrary function; all option combinations.", "anchors": ["template/template_handler.go: processContentInternal"]}
{"id": "C41", "title": "Which files are strict", "statement": "Errors are reported for a file if and only if the strict option is set, the text holds force-gotemplate!, or its extension is one of .gt .gte .template . .g .gt, .gte, .t .te .tem .temp .templ .templa .templat; only the first three were meant.", "quantifier": "for all file names", "why_tests_cant": "Substring test over all extensions.", "anchors": ["template/template_handler.go: processContentInternal"]}
{"id": "C42", "title": "File effects of processing one template", "statement": "In-place processing of an unchanged file and failed processing touch nothing. At every instant, also a crash between or during system calls, only the template, its .original and the result file differ from before. Without overwrite the processed file can be read at every instant, under its own name or (in place, not a template) as .original; with another target folder it is never touched; a template is removed only when its result is complete. At the end the result file holds the result with the mode of the template (0755 for scripts) when it is new. These need a file below the source folder and folders that are written the same way or differ; otherwise, and with overwrite in place, texts can be lost.", "quantifier": "for all file systems, options, engine results and crash points", "why_tests_cant": "Crash points and file system states cannot be enumerated by tests.", "anchors": ["template/template_handler.go: processTemplate"]}
{"id": "C43", "title": "Backups of repeated runs", "statement": "After two in-place runs without overwrite that both change the file, its place holds the second result and the .original holds the first result, all other places are as before: the text before the first run is lost.", "quantifier": "for all file systems and sequences of two runs", "why_tests_cant": "Tests run each file once.", "anchors": ["template/template_handler.go: processTemplate"]}
{"id": "C44", "title": "Name of the result file", "statement": "The suffixes .gt then .template are removed from template names (x.gt, x.template and x.template.gt give x; x.gt.template gives x.gt). With overwrite that is the result name, without it .generated is put before the extension, injectively; a name without those suffixes is kept; a blank result of a name without extension is not saved. Two templates of different kinds may have the same result name.", "quantifier": "for all file names, folders, results and both overwrite modes", "why_tests_cant": "All suffix combinations.", "anchors": ["template/template_handler.go: processTemplate", "template/template_process.go: templateExt", "template/template.go: isTemplate"]}
{"id": "C45", "title": "Every template of a batch is processed", "statement": "ProcessTemplates processes all templates in order until one panics, whatever fails, on the files left by the previous ones; it returns exactly the non-empty result names of the successes in order and the errors of the failures in order; every template starts with the caller's standard output option. The option may stay switched on after the last file.", "quantifier": "for all lists of templates, all outcomes and option changes", "why_tests_cant": "All failure patterns.", "anchors": ["template/template_handler.go: ProcessTemplatesWithHandler"]}
{"id": "C46", "title": "Template detection", "statement": "A text is razor exactly when it holds the razor delimiter and neither no-gotemplate! nor no-razor!; it is code exactly when it does not hold no-gotemplate! and holds a left or right delimiter or is razor. Hence razor implies code and no-razor! turns off razor only.", "quantifier": "for all texts and delimiters", "why_tests_cant": "All texts.", "anchors": ["template/template.go: IsCode, IsRazor"]}
{"id": "C47", "title": "Function registration does not depend on map order", "statement": "Registering a set of functions with aliases gives the same table and the same functions for the engine for every map iteration order when no alias is shared and no aliased name has aliases of its own; each function is reachable by its name and all its aliases, other names keep what they had. Without those conditions the table depends on the iteration order; the table of sprig functions is such a case. The list of functions is sorted and independent of the order.", "quantifier": "for all function sets and all iteration orders allowed by Go when entries are inserted during iteration", "why_tests_cant": "The runtime's order is random; tests see a few orders.", "anchors": ["template/func_table.go: AddFunctions, addFunctions, getFunctionsInternal"]}
{"id": "C48", "title": "Including a template restores the context", "statement": "After include/template/run the caller's context is the one before the call, on success, failure, panic and after the retry with a cloned context. The template gets the dictionary passed as argument itself: it keeps its entries and receives the constants and the parent link, and on the retry every name of the parent. Other arguments are given as ARGS and no old dictionary is written. If the context contains itself no template can be run. Not preserved: the option missingkey, which an inner call resets for the rest of the outer template; the outer context, which two calls with the same dictionary inside an included template make cyclic. Undefined values in the result are an error unless they are accepted.", "quantifier": "for all contexts, arguments and engine behaviours including nested calls", "why_tests_cant": "Every exit path of an arbitrary engine.", "anchors": ["template/extra_runtime.go: optimizedRunTemplate, runTemplate"]}
{"id": "C49", "title": "Function definitions with default arguments", "statement": "A defined function called with one dictionary (or a text that is read as one) sees, for each name, the argument first, then the declared default, then the context; called with positional arguments it sees them bound to the declared names in order, the surplus under ARGS, then the defaults, then the context. The settings of the definition are found under all their names in whatever order the map is visited, unless one is given under two names. Not isolated: nested dictionaries of the defaults and of the argument are filled in by a call and seen by the next; a call from an included template makes the outer context contain itself.", "quantifier": "for all argument lists, defaults and contexts", "why_tests_cant": "Precedence over arbitrary dictionaries and call sequences.", "anchors": ["template/extra_runtime.go: addAlias"]}
{"id": "C50", "title": "Razor expressions keep their grouping", "statement": "The translation of an expression into template syntax parses back, under the template argument grammar, to the prefix call tree of the expression: operator, operand order and grouping are kept, so that different call trees have different texts; expressions of other kinds are refused with an error. Four shapes break it: a product whose right operand text contains a star (also inside a string literal), a method of the current context called with arguments and used as an operand, a call of the result of a call, a field of a literal text.", "quantifier": "for all expression trees of the supported node kinds", "why_tests_cant": "Trees are unbounded.", "anchors": ["template/razor_expr.go: nodeValue, nodeValueInternal, operatorName"]}
{"id": "C51", "title": "Reserved words survive expression parsing", "statement": "Replacing the reserved words by placeholders and restoring them gives the original expression (its dollar signs doubled, and single again after the expansion of the regular expression) for every order of the replacement loop, when the expression contains neither REPL_ nor one of the two markers. An expression without a complete placeholder is not enough. Dollar signs in literal texts, a global variable called slice and overlapping symbols of operators are changed.", "quantifier": "for all expressions and all iteration orders of the keyword table", "why_tests_cant": "Random map order and overlapping keywords.", "anchors": ["template/razor_repl_expr.go: expressionParserInternal, reserved, reservedKeywords"]}
{"id": "C52", "title": "Multi-line strings survive razor processing", "statement": "Multi-line raw strings are put aside and restored unchanged, whatever earlier documents were processed and whatever is done to the text around their placeholders, when the document does not use the form of the placeholders; with nothing in between the document is unchanged, code fences included, unless a string put aside holds a fence. Documents processed at the same time get their own strings back when no call is interrupted; if two calls overlap a string of one can end up in the other. Fences after a single backtick, raw strings that start like a placeholder and copied placeholders are handled wrongly.", "quantifier": "for all documents, all histories, all interleavings of two processings", "why_tests_cant": "Data races need a schedule.", "anchors": ["template/razor_repl_literal.go: protectMultiLineStrings, longStrings"]}
{"id": "C53", "title": "Precedence of imported variables", "statement": "The value of a variable is the one given by the last source defining it, in the order: optional imports, imports, named variables, each in command line order; the type of the context is the default type if a type was asked for and the type of the first source otherwise. Missing optional files are skipped and missing required files are an error unless ignored. An unnamed argument that is not a file is dropped silently. A null variable is never accepted (it panics). The result does not depend on the iteration order of the data of an argument, unless a name is empty. A source without a name gets the last name of its path, whatever the slashes behind it.", "quantifier": "for all lists of files and variables and all file contents", "why_tests_cant": "All overlaps of all sources.", "anchors": ["context.go: createContext"]}
{"id": "C54", "title": "Patterns and exclusions", "statement": "exclude returns the files matched by no pattern, in order, and all files when there is no pattern; a failing test is reported; pattern lists are split on commas, trimmed and emptied of blanks.", "quantifier": "for all file lists, pattern lists and matching functions", "why_tests_cant": "All combinations.", "anchors": ["utilities.go: exclude, extend"]}
{"id": "C55", "title": "File search", "statement": "Without links (or with links not followed), the search returns the matches of the folder as it was given and of all its sub-folders down to the maximum depth, in walk order, once per pattern, up to the first sub-folder for which Glob fails; whatever is followed, nothing else is returned; a malformed pattern panics. With links followed, a link to the searched folder makes the search run for ever.", "quantifier": "for all directory trees, depths and patterns", "why_tests_cant": "All trees; non-termination cannot be observed by a test.", "anchors": ["utils/io.go: FindFiles, FindFilesMaxDepth"]}
{"id": "C56", "title": "Options", "statement": "Set and Unset change exactly the given options and the last change wins; by default exactly the first eleven options are on. After any history of context creations and option changes, changing one option of a template changes that option of that template only; a new context starts with the options of its parent and is distinct from all others unless the cache is used, in which case the same folder gives the same context again.", "quantifier": "for all option sets and all histories of context creations and option changes", "why_tests_cant": "Sequences of operations.", "anchors": ["template/options.go: Set, Unset, DefaultOptions", "template/template.go: GetNewContext"]}
{"id": "C57", "title": "Conditional helpers", "statement": "IIf returns the second argument exactly when the test is not empty; Default returns the value or the default when it is empty; IfUndef returns the default exactly for no value, nil or a nil pointer, the single value otherwise, and the list for several values.", "quantifier": "for all values", "why_tests_cant": "All kinds of values.", "anchors": ["collections/utils.go: IsEmptyValue, IIf, Default, IfUndef"]}
{"id": "C58", "title": "Constants do not override user data", "statement": "The predefined constants are added only under names the user did not define; user entries are never changed, and defining constants twice is the same as once. All missing constants are defined when no user entry is itself one of the constants; otherwise some may be missing (a user entry NL equal to a newline removes CR), and in a native Go map holding native content the constants are lost.", "quantifier": "for all contexts and all lists of names already defined", "why_tests_cant": "All user contexts.", "anchors": ["template/template.go: setConstant, init"]}
{"id": "C59", "title": "Substitution patterns", "statement": "A substitution of the form <sep>regex<sep>replacement is accepted exactly when, trimmed, it has three parts around its first character with a non-empty regex, provided that this character is ASCII (others are refused); substitutions are applied in order, each on the result of the previous one; a replacement that is a single d means deletion, including the end of line when the regex ends with $.", "quantifier": "for all substitution texts", "why_tests_cant": "All texts.", "anchors": ["utils/substitute.go: InitReplacers, Substitute"]}
{"id": "C60", "title": "Repeat and list merging", "statement": "repeat(n,v) is the list of n copies of the converted value and an error for negative n; merging lists is concatenation in order; list formatting returns one formatted text per element in order, except for a list made of one single list, where the result has another length.", "quantifier": "for all counts, values and lists", "why_tests_cant": "All sizes.", "anchors": ["template/extra_utils.go: repeat", "utils/list.go: MergeLists, FormatList"]}
{"id": "C61", "title": "get, hasKey and dict accept their dictionary on either side", "statement": "The template functions get and hasKey give the same answer whether the dictionary is the first or the second argument; get returns the entry, or the default when the entry is missing or nil; hasKey is true exactly when the key (by printed form) exists; without a dictionary both report an error. dict k1 v1 k2 v2 ... maps every key to the last value given for it and holds no other key, and an odd number of arguments is an error.", "quantifier": "for all dictionaries, native maps, keys, values and argument lists of any length", "why_tests_cant": "tests exercise a few literal maps; key collisions by printed form, nil entries and swapped arguments range over all values", "anchors": ["template/extra_data.go: get, hasKey, createDict", "collections/dictionary.go: TryAsDictionary"]}
{"id": "C62", "title": "contains accepts list and element in either order", "statement": "contains list e1 ... en holds exactly when the list is not empty and every element has the printed form of some list element; with one list and one non-list argument the order does not matter; with two texts it is the substring test with the searched text first; the function reports errors but never panics.", "quantifier": "for all lists, elements, strict and non strict", "why_tests_cant": "the behaviour depends on the run-time types of both arguments, which tests can only sample", "anchors": ["template/extra_data.go: contains, containsStrict, containsInternal", "collections/implementation/list_helper.go: Contains"]}
{"id": "C63", "title": "Wildcards in arguments", "statement": "glob replaces each argument that has wildcards by its matches when there are some, keeps (or drops when asked) the others that have wildcards, and keeps the arguments without wildcard; results are in the order of the arguments.", "quantifier": "for all argument lists and all results of the file system", "why_tests_cant": "All argument lists and file systems.", "anchors": ["utils/io.go: globFunc, GlobFunc, GlobFuncTrim"]}
{"id": "C64", "title": "Place of result files", "statement": "Clean keeps the place a path leads to and is canonical for absolute paths; Join follows one path then the other; Rel leads from the base to the target and does not go up when the target is below the base. The result of a file is at the same place relatively to the target folder as the file relatively to the source folder, distinct files below the source folder have distinct results, and files outside of it may share one.", "quantifier": "for all paths, source folders and target folders", "why_tests_cant": "All combinations of dots, double dots, slashes and relative positions.", "anchors": ["template/utils.go: getTargetFile", "utils/io.go: Relative", "main.go: targetFolder"]}
{"id": "C65", "title": "Merging values into a template context", "statement": "Template.Merge should merge the given values into the context; it changes no entry of the context but one, named by the printed text of a function, so that no value is merged.", "quantifier": "for all contexts and values", "why_tests_cant": "Absence of every effect but one, on all contexts.", "anchors": ["template/template.go: Merge", "template/extra_data.go: key"]}
{"id": "C66", "title": "Custom delimiters", "statement": "One to three comma separated delimiters replace the left, right and razor delimiters in that order, empty ones keep the default, more than three are refused; delimiters are never empty.", "quantifier": "for all delimiter texts", "why_tests_cant": "All texts.", "anchors": ["template/template.go: NewTemplate", "template/template.go: LeftDelim, RightDelim, RazorDelim"]}
{"id": "C67", "title": "Terraform results cannot be printed", "statement": "When the output goes to the standard output, no file is touched; the result is printed as it is unless the result file would be a terraform file (.tf, .tf.json, .tfvars): then the processing always panics.", "quantifier": "for all files, options, engines and names", "why_tests_cant": "The tests never print a terraform file; the panic is for all of them.", "anchors": ["template/template_process.go: printResult", "template/template_handler.go: processTemplate"]}
{"id": "C68", "title": "Operators written as words", "statement": "In a razor expression in which no two words of operators follow each other, all words of operators between blanks are replaced by their operators, whatever the order in which the table of operators is visited. Two words that follow each other (a and not b) share a blank and the result depends on the order.", "quantifier": "for all expressions and all iteration orders of the operator table", "why_tests_cant": "The order of the map is random at each run.", "anchors": ["template/razor_repl_expr.go: expressionParserInternal", "template/razor_expr.go: operators"]}
{"id": "C69", "title": "Scripts and commands", "statement": "A text is a script exactly when, trimmed, it is #!, a program, at most one more word and the end of the line; then its parts are these words and the rest, a script file is run by its program with the second word, the file and the arguments, a result that is a script is written executable, and any other text is a known command, an unknown name (an error) or a line for the default shell. Refuted: a #! line with two words after the program is not a script; the program can stand on a later line; a script given as text receives its arguments at the end of its last line; an unknown command in a file is neither run nor an error; without a shell the first word of a command line is run on the temporary file.", "quantifier": "for all texts, arguments, programs found in the path and file names", "why_tests_cant": "The regular expression backtracks over all ways to divide the white space and the words.", "anchors": ["utils/exec.go: shebang, IsShebangScript, ScriptParts, GetCommandFromFile, GetCommandFromString, IsCommand, saveTempFile", "template/template_handler.go: processTemplate"]}
{"id": "C70", "title": "Razor references and escapes", "statement": "In a document made of text, references to global variables (@name, with the marks -, _, -- and _-, closed by ; or not) and escaped delimiters (@@), the whole table of razor replacements turns each reference into an action that writes $.name with the white space trimmed as the marks say, each escaped delimiter into the delimiter, and leaves the text as it is. Conditions: names start with a letter, do not start with else or end and are not reserved words; what follows an open reference cannot be read as its continuation; the text holds none of the special texts of other replacements. Refuted without them: @endpoint becomes an end; the full stop after a reference becomes a part of the name; a name cannot start with _; markers and some quotes in the text are changed. The sign in an e-mail address is doubled, unless the address starts with a razor sign or a number sign.", "quantifier": "for all documents of this kind, all classes of letters beyond ASCII and all replacements with a parser", "why_tests_cant": "165 regular expressions are applied one after the other to every text; tests see only the combinations of texts and references that were written.", "anchors": ["template/razor.go: applyRazor", "template/razor.go: expressions, customMetaclass, ensureInit"]}
{"id": "C71", "title": "Razor with other delimiters", "statement": "Refuted: that razor references work with any delimiters of the template. With a right delimiter that does not start with a brace the name of a group remains in the text written.", "quantifier": "for all delimiters; refuted by a witness", "why_tests_cant": "The delimiters are inserted into regular expressions and replacement texts.", "anchors": ["template/razor.go: applyRazor", "template/razor.go: ensureInit", "template/template.go: NewTemplate"]}
{"id": "C72", "title": "Razor assignments", "statement": "In a document made of lines of text and lines of assignments (@x, @$.x, @.x, @$x or @{x}, with a path of names before the last name, with :=, = or an operator of the eleven binary operators followed by =, and an expression) the whole table of razor replacements turns each assignment into the action that sets the target to the value of the expression: a variable of the template by := or =, everything else by the function set on the object that holds it. A compound operator applies the function of the operator to the present value of the target and the whole expression. A value of the context that is not declared with := is checked first, as the mode says. All other lines remain. Conditions: names of letters, digits and _, which do not start with else or end after a bare delimiter; no compound operator + - * % directly after a name; expressions of literals, names, selectors, parentheses, unary and binary operators and calls; the text holds none of the special texts of other replacements. In each of the three modes of validation the check in front of an assignment of a global variable is the one of the mode, and a declaration has none.", "quantifier": "for all documents of this kind, all orders of the maps of the code, all classes of letters beyond ASCII, all modes of validation and all parsers of Go expressions that read a.b op (E) as the operation on a.b and E", "why_tests_cant": "165 regular expressions are applied one after the other, three maps are visited in random order and expressions are protected, parsed, written and restored; tests see single lines.", "anchors": ["template/razor.go: applyRazor", "template/razor.go: expressions", "template/razor_repl_assign.go: assignExpressionInternal", "template/razor_repl_expr.go: expressionParserInternal", "template/razor_expr.go: nodeValue, nodeValueInternal"]}
{"id": "C73", "title": "Razor assignments without the conditions", "statement": "Refuted: that every assignment sets its target. @x+=7 sets a value named x+; the update of a name with a hyphen, which can be declared, reads the difference of two other values; the update of a value named slice calls the function slice; a target that starts with end or else ends a block; an expression that cannot be translated is written as it stands, since the error of the inner call is lost.", "quantifier": "for all targets, operators and expressions; refuted by witnesses", "why_tests_cant": "The tests use names and spacing for which the assignments work.", "anchors": ["template/razor.go: expressions", "template/razor_repl_assign.go: assignExpressionInternal", "template/razor_repl_expr.go: expressionParserInternal"]}
{"id": "C74", "title": "Errors are attributed to their line and action", "statement": "For each message of text/template about a file, however many messages of including templates surround it, the error handler reports the place, the text and the line of the source, and changes that line only: an action that fails becomes \"<RUN_ERROR>\" and the rest of the line is kept; raised errors and lines that cannot be read become ERROR; an undefined variable is replaced alone; a missing key becomes \"<no value>\" and is reported, unless the action has a default (which is written instead) or a condition such as if isSet (which becomes false or true), when nothing is reported. An error in another file stops the rendering and shows the line of that file; other errors are reported as they are. In the whole rendering of a strict file the error is part of the report.", "quantifier": "for all files, lines, actions, delimiters, messages, codes, texts and surrounding messages that satisfy the stated conditions on occurrences", "why_tests_cant": "The handler works on texts with six regular expressions tried in turn; which groups match depends on every part of the message and of the line.", "anchors": ["template/template_error_handler.go: Handler", "template/template_error_handler.go: init", "template/template_handler.go: processContentInternal"]}
{"id": "C75", "title": "Errors without the conditions", "statement": "Refuted: that each error is reported with its line and that the repaired template can be rendered. The second failing action of a line is not reported; {{ isNil .x }} with a missing key becomes true }}; {{.x}} gets the mark between all its characters; an operand at the start of a line panics; a message of two lines moves the lines that follow and may panic; a message that names a template is attributed to it; an undefined $x damages $xy; a stray end stays in the repaired line and stops the rendering; in scripts of gotemplate the line shown is the one above.", "quantifier": "for all templates and messages; refuted by witnesses", "why_tests_cant": "The tests have one error per line, blanks around actions and messages of one line.", "anchors": ["template/template_error_handler.go: Handler", "template/template_handler.go: processContentInternal"]}
{"id": "C76", "title": "Regular expressions are read and matched as documented", "statement": "The engine that runs the expressions of razor, of scripts, of error messages and of substitutions agrees with the documentation of package regexp, given as an independent specification: a match is found exactly when one exists, it is the one that a backtracking search tries first (longest or shortest repetitions, first alternatives), it is the leftmost, and its groups hold the last texts they took; replacing cuts the text in parts, each match is replaced by the expanded template and the rest is copied; $$, $name, ${name} and numbers are expanded as documented; and each expression written in the supported syntax (literals, classes, groups with names, flags, repetitions with bounds, alternatives, boundaries of lines, texts and words) is read as what it means, with its group names.", "quantifier": "for all expressions of the supported syntax, texts, templates and groups", "why_tests_cant": "The tests match the expressions of the code on a few texts; the choice among the matches of an expression is over all texts and all expressions.", "anchors": ["template/razor.go: expressions", "template/razor.go: customMetaclass", "template/template_error_handler.go: init"]}
{"id": "C77", "title": "Razor blocks", "statement": "In a document made of lines of text, lines of assignments (as in C72) and lines that start, after blanks, with a command for blocks (@if, @else if, @with, @range, @for or @foreach with an expression in parentheses, @else, @end with or without the name of a command and a semicolon; each with one of the five marks for trimming) the whole table of razor replacements turns each command into the action of the template with the trimming of its mark: if, else if and with keep their name, all loops become range, the expression is translated as in C72. The text after a command and all other lines remain. Conditions: blanks after a condition are dropped; the text after a condition holds no ), ;, { or @; the text after @else holds no ( or @; after @end without a semicolon no blank or letter follows.", "quantifier": "for all documents of this kind, all orders of the maps of the code, all classes of letters beyond ASCII, all modes of validation and all parsers of Go expressions that read a.b op (E) as the operation on a.b and E", "why_tests_cant": "The 165 expressions of the table see each other's results, loops pass through two rows and the greedy expressions of the commands decide by the whole line; tests see single documents.", "anchors": ["template/razor.go: applyRazor", "template/razor.go: expressions", "template/razor_repl_expr.go: expressionParserSkipError, expressionParserInternal", "template/razor_expr.go: nodeValue, nodeValueInternal"]}
{"id": "C78", "title": "Razor blocks without the conditions", "statement": "Refuted: that every block command of razor becomes the action of its name and the text around it remains. @elseif, which the table accepts, gives the action elseif, which is not an action of text/template; a text with a semicolon after a condition ends the block at once, so that the end of the block is one too many; @end for the day loses the word for; the blank between a condition and its text is lost; the loop @for (i := x) is neither translated nor made an assignment of a variable, @for ($i := x) is.", "quantifier": "for all lines with commands for blocks; refuted by witnesses", "why_tests_cant": "The tests use the forms that work.", "anchors": ["template/razor.go: expressions", "template/razor_repl_expr.go: expressionParserInternal"]}
{"id": "C79", "title": "Identifiers made from texts", "statement": "For every text s and every non-empty ASCII replacement r without the signs * | ^ $, id s r is s with every character that is not a letter, digit or underscore replaced by r and every run of replacements that follow each other reduced to one; it never fails. Without replacement the result only consists of letters, digits and underscores, never has two underscores in a row, and id applied to it changes nothing.", "quantifier": "all texts (any bytes), all such replacements, any class of letters beyond ASCII", "why_tests_cant": "The two texts are arbitrary, and the replacement is compiled to a regular expression after an escape done with another one; tests try a few signs.", "anchors": ["template/extra_utils.go: id", "template/extra_utils.go: validChars, duplicateUnderscore, regexSpecial"]}
{"id": "C80", "title": "Identifiers without the conditions", "statement": "id does not always return a valid Go identifier (a text that starts with a digit, the empty text); the replacement * is a panic; with the replacements | ^ $ a text without any invalid character is changed; a replacement with $ is taken as a reference to a group and lost.", "quantifier": "witnesses; the panic for all texts", "why_tests_cant": "The help text promises a valid identifier; no test uses such a replacement.", "anchors": ["template/extra_utils.go: id", "template/extra_utils.go: regexSpecial"]}
{"id": "C81", "title": "set and unset change one entry of their dictionary", "statement": "set d k v on a dictionary of any implementation makes k hold data equal to v, converted to dictionaries and lists of the package, leaves every other entry and every other existing map as it was, and never fails for finite data; unset removes exactly the key and accepts a missing one. The dictionary may also be the last argument. There is an error exactly when neither argument is a map or nil. A map[string]interface{} without native data inside is changed in place like a dictionary; when stored it is shared in this case and copied otherwise.", "quantifier": "all heaps of maps, all finite values, all implementations, any conversion of keys to text", "why_tests_cant": "The property is on what does not change, in all maps reachable from elsewhere, and on sharing between maps; a test looks at one result.", "anchors": ["template/extra_data.go: set, unset", "collections/dictionary.go: TryAsDictionary", "collections/implementation/base_helper.go: tryAsDictionary, TryAsList, TryConvert, NeedConversion", "collections/implementation/dict_helper.go: Set, Delete"]}
{"id": "C82", "title": "set and unset without effect", "statement": "set and unset report no error and change nothing that exists when they are given nil, a nil map, a native map of another type, or a map[string]interface{} that contains a native map or slice at any depth. Storing a dictionary that contains itself does not end.", "quantifier": "all heaps and all finite values for the first part; witnesses", "why_tests_cant": "Whether a map is changed depends on what it contains at any depth; the tests use one kind of map.", "anchors": ["template/extra_data.go: set, unset", "collections/implementation/base_helper.go: tryAsDictionary, NeedConversion"]}
{"id": "C83", "title": "The list of functions", "statement": "The functions listed are exactly those asked for: with a question without blanks, those whose name, aliases or, when shown, group or description contain it whatever the case, aliases only on demand; each once, in ascending order, in ascending non-empty groups. The short form has every function in exactly one cell of at most five columns read downward, with as few lines as possible and cells of equal width whether coloured or not. The long form has each function once for all its names, with its description unless its name was taken by an alias added later (refuted in general).", "quantifier": "all tables of functions with distinct names, all questions, all numbers of functions", "why_tests_cant": "The position arithmetic has to be right for every number of functions, and the filter for every table.", "anchors": ["template/template_help.go: PrintFunctions, filterFunctions, printFunctionsShort, printFunctionsDetailed", "template/func_table.go: getFunctionsInternal"]}
{"id": "C84", "title": "From the command line to the templates", "statement": "For all flags and every behaviour of the file system and of the engine: the templates handed over are the files found with the patterns (the default ones exactly when there is neither standard input nor an argument) at the depth asked for, then the arguments as the user has written them (unless they start with #!!), made relative where there is such a file, without those matched by an exclusion pattern, then standard input unless it was read for the variables. The target defaults to the source, each option of the engine is its flag, and the exit code is 0 exactly for the version, the list, an ignored missing source, and when neither the exclusions nor the engine fail; 1, 3 and -1 tell the other ends apart. On a failing exclusion exactly the files left before the first one that cannot be tested are processed.", "quantifier": "all flags, file systems, contexts and engines", "why_tests_cant": "The combinations of about thirty flags with the state of the file system and of standard input cannot be enumerated.", "anchors": ["main.go: runGotemplate", "utilities.go: exclude, extend"]}
{"id": "C85", "title": "What the command line says about itself", "statement": "Against the documentation of the flags: --overwrite is required also when the target differs from the source (for all runs the option is the flag); the values of flags that start with @ are not restored, so that a substitution separated by @ is refused; a template starting with #!! loses these characters; --base set by the environment does nothing and a template named --base turns the addons off.", "quantifier": "all runs for the first; witnesses", "why_tests_cant": "The assignment that should make overwrite the default compiles and looks right; only its order is wrong.", "anchors": ["main.go:74", "main.go:104-112", "main.go:136", "main.go:167", "main.go:235"]}
{"id": "C86", "title": "Calls with an expanded last argument", "statement": "Whatever the engine does with a call, ellipsis f a b list calls f once with a, b and the items of the list (a nil or a Go slice count as lists), in a context where each argument has a variable of its own; the text printed is returned as data, and the error of the call without its position. Every other last argument, and no argument at all, is refused before anything is called.", "quantifier": "all engines, functions, states and arguments", "why_tests_cant": "The number of arguments decides the names of the variables and the text of the call; the function and the engine are arbitrary.", "anchors": ["template/extra_runtime.go: ellipsis", "template/extra_runtime.go: tryConvert"]}
{"id": "C87", "title": "A call with an expanded last argument is not that call", "statement": "Against the description of ellipsis (it is like calling function(arg1, arg2, otherArgs...)): the result of a function that returns a text is turned into a number or another datum, a result that looks like code is run, and for every function whose printed result is read as nil the call panics.", "quantifier": "witnesses; all functions for the last", "why_tests_cant": "The tests use functions whose results survive the round trip through a text.", "anchors": ["template/extra_runtime.go:66", "template/extra_runtime.go: tryConvert"]}
{"id": "C88", "title": "Texts taken as data", "statement": "data of nil is nil; any other value is printed, run as a template, and the result read as data when there is neither error in the run nor in the reading, and otherwise the error; a value of the type String of the collections panics.", "quantifier": "all engines, states and values", "why_tests_cant": "The engine and the parsers of data are arbitrary.", "anchors": ["template/extra_data.go: fromDataInternal", "template/extra_data.go: dataConverter"]}
{"id": "C89", "title": "Razor names that are left alone", "statement": "For every plain delimiter and every name of letters, digits and underscores: an entry of the list of ignored expressions, surrounded by any white space, hides the delimiter exactly before the texts whose longest name is that name; an entry w.* hides it exactly where the text goes on with w; and a list of names hides it exactly before the names of the list, when no name is directly followed by another delimiter.", "quantifier": "all delimiters, names, lists of names and texts", "why_tests_cant": "Boundaries of words and repeated replacement depend on the whole text.", "anchors": ["template/razor.go:19-31"]}
{"id": "C90", "title": "Ignored razor names and their expressions", "statement": "What is not true of ignored expressions: the order of the list matters when a name is followed by another delimiter; an alternative a|b leaves other names alone and b not; the delimiter is not quoted, so that $ leaves nothing alone and + panics; names that end with a letter beyond ASCII are never left alone.", "quantifier": "witnesses", "why_tests_cant": "They are found by trying to prove the general statement.", "anchors": ["template/razor.go:19-31"]}
{"id": "C91", "title": "Ignored razor names from the environment", "statement": "A value of GOTEMPLATE_IGNORE_RAZOR that starts with an ASCII letter is the list of its entries, separated by any mix of commas, blanks and line ends, as far as the effect on any text is concerned. A value that starts with an underscore is read as data instead, although it may be a name.", "quantifier": "all entries, separators, delimiters and texts", "why_tests_cant": "The three replacements and the splitting have to agree on every mix of separators.", "anchors": ["template/template.go:143-158"]}
{"id": "C92", "title": "Raw texts in the result and the substitutions of a template", "statement": "In every document made of quoted texts and other text, without pseudo comments, the default substitutions of a template show each raw text without its marks, without its quotes unless there is white space in it, and leave everything else as it was; the substitutions of the environment and then those of the caller are applied to that. In particular a list of non empty raw texts printed by JSON. raw with two arguments or more, and rawList, mark each argument. Against the description (print the arguments outside of their enclosing quotes): white space keeps the quotes, and an empty raw text takes the next one and shows the marks. A newline at the end of GOTEMPLATE_SUBSTITUTES makes NewTemplate fail.", "quantifier": "all documents, environments, substitutions and lists", "why_tests_cant": "The lazy repetitions may reach over the end of a text; only an argument about all documents excludes it, and it found the case where they do.", "anchors": ["template/template.go:132-141", "template/extra_utils.go: rawPrint, rawList", "utils/substitute.go"]}
{"id": "C93", "title": "Commands run from a template", "statement": "run evaluates its first argument as a template. When the result comes from a file without templating, this file is the command; otherwise the text is. A single dictionary (or nil) is for the template only, all other arguments are given to the command. The command is looked for as C69 says, launched at most once, in the folder of the template, and what it prints is returned; an error of the template, of the search or of the process is an error and nothing is returned. exec does the same and returns what is printed as data when it can be read as data, as a text otherwise.", "quantifier": "all engines, file systems, states, commands, arguments and processes", "why_tests_cant": "The choice between file and text depends on the file system, on razor and on the retries of the template; processes are arbitrary.", "anchors": ["template/extra_runtime.go: run", "template/extra_runtime.go: exec"]}
{"id": "C94", "title": "Files run and included", "statement": "include refuses every text that is neither the name of a template nor of a file and has no templating, and gives what the template gives when this is another text than its name. Against the comments and the documentation: a script file that only uses razor is run as it was before razor; of two scripts that give the same text, the one with templating gets the arguments at the end of its last line instead of as arguments; when a template of a file needs a second attempt, the text of the file is taken for the name of another file, whose content is returned; and an existing file is not found when its text is its name.", "quantifier": "all engines, states, texts and arguments; witnesses for the refutations", "why_tests_cant": "The refutations are in the interplay of files, razor and retries; the positive part holds for all texts.", "anchors": ["template/extra_runtime.go: include", "template/extra_runtime.go: optimizedRunTemplate", "template/extra_runtime.go: run"]}
{"id": "C95", "title": "Saving and loading files", "statement": "In a folder where the user can make files, save gives the file the bytes of a list of bytes and the printed text of every other object, changes nothing else in the file system, and keeps owner and mode of an existing file. A missing folder is made when the one above it is there; otherwise nothing is written and the error is that something does not exist. A save that fails leaves a new folder at most. Whatever the name, load gives back what was saved, as a text or as bytes, unless the file may be written and not read. Against its documentation, nil is saved as an empty file.", "quantifier": "all file systems (without links and groups), users, umasks, names and objects", "why_tests_cant": "Names with . and .., relative names, missing folders, owners and modes combine; that nothing else changes is a statement about all places.", "anchors": ["template/extra_os.go: saveToFile", "template/extra_os.go: loadFromFile"]}
{"id": "C96", "title": "Tests of files", "statement": "For a file or folder that is there, exists, isDir, isFile and size tell the truth, and isReadable, isWriteable and isExecutable tell the bit of the owner in the mode, folders being never executable. For a place in a folder where nothing is there, exists is false and all the others are errors. Against their documentation (readable, writeable by the current user; determines if a file exists or not): a file said to be readable and writeable can be neither read nor written by the current user, one said not to be readable can be read, and exists is an error for a name that goes through a file.", "quantifier": "all file systems (without links and groups), users and names; witnesses for the refutations", "why_tests_cant": "Tests run as one user on files of this user.", "anchors": ["template/extra_os.go: fileExists", "template/extra_os.go: isReadable"]}
{"id": "C97", "title": "Templates of extension files", "statement": "The extension files are those of the folders of GOTEMPLATE_PATH, in order and without the folders that cannot be searched, then those of the folder of the template. Every template they define is loaded, and nothing else: in one folder the last definition that is not empty counts. A template defined in several folders is taken from any one of them: for each of these folders there is an order of visiting the map of contexts that makes its definition the one that is loaded, so that extensions of the folder of the template do not override those of GOTEMPLATE_PATH.", "quantifier": "all lists of files and definitions, all orders in which maps are visited", "why_tests_cant": "Go visits maps in random order: a test sees one order.", "anchors": ["template/template.go: initExtension", "template/template.go: importTemplates"]}
{"id": "C98", "title": "Templates seen by a file", "statement": "A file being processed sees the templates of the main template, replaced by the last definitions that are not empty in the files of the same folder processed so far; the files of the other folders do not matter. The same file given by a relative and by an absolute name has two contexts.", "quantifier": "all main templates, lists of files and definitions", "why_tests_cant": "The contexts are made when a folder is met for the first time and are shared afterwards; independence is a statement about all other files.", "anchors": ["template/template.go: GetNewContext", "template/template_handler.go: processContentInternal"]}
{"id": "C99", "title": "Razor documents with expressions and calls", "statement": "In a document whose lines are text, text @(E) text or text @f(A) text, with an optional mark for trimming and an optional semicolon, each expression or call becomes the action of the template that shows its value (with the trims of its mark), and the text around it remains, whatever the 165 replacements of the razor table do before and after. An expression that Go cannot parse is left as it is by the replacements that skip errors and copied by the other ones.", "quantifier": "all documents that satisfy the conditions, all orders in which the maps of words and operators are visited, all modes of validation", "why_tests_cant": "Each of the 165 regular expressions of the table is applied to the whole document; that none of them touches a document is a statement about all texts, expressions and names.", "anchors": ["template/razor.go: applyRazor", "template/razor.go: expressions", "template/razor_repl_expr.go: expressionParserInternal"]}
{"id": "C100", "title": "What the conditions of C99 leave out", "statement": "The conditions are needed: a pair of parentheses in the text behind a call is evaluated as a part of the expression or prevents the translation; an underscore as a mark in front of a parenthesis is taken as the name of a function or of a variable; a function whose name starts with end or else is taken as that command; the functions that indent take the text in front of them as an argument; quotation marks around raw disappear.", "quantifier": "existence of documents", "why_tests_cant": "The samples of the tests put nothing of this kind behind or in front of an expression.", "anchors": ["template/razor.go: expressions"]}
{"id": "C101", "title": "Signatures shown by the help", "statement": "For a function without a text of its own the help shows one parameter for each parameter of the Go function, in order, with the name given to it (or arg1, arg2, ..., or args) and its type, three points in front of the last one of a variadic function; for a method the receiver and the names are left out. Two parameters of a function never have the same name. The results are shown without the error at the end, between parentheses unless there is one. Texts given for parameters and results are shown as they are. Aliases of a function are listed, replaced ones are not; the aliases of functions with a text of their own are hidden (refuted).", "quantifier": "all functions, numbers of parameters and results, names and types", "why_tests_cant": "The tests print the list of the functions that exist and never a signature with parameters of their choice.", "anchors": ["template/func_table.go:96-164 getArguments, getResult, getSignature", "template/template_help.go:181-190"]}
{"id": "C102", "title": "Categories of the functions", "statement": "The categories and the names in each of them are in ascending order without repetition, none is empty, each name is in the category of the group of its entry and in no other; the order in which the table is visited does not matter and the categories depend only on the names and the groups.", "quantifier": "all tables of functions, all orders of iteration", "why_tests_cant": "A test sees one table and one of the random orders of iteration.", "anchors": ["template/func_category.go:19-44"]}
{"id": "C103", "title": "find and findStrict", "statement": "In a list find gives the ascending positions of exactly the elements printed like the one sought, findStrict those of the equal ones. In a text both give places where the text of the element occurs, ascending, without overlap, and each occurrence overlaps one of them. find gives nothing exactly when contains says no, but for the empty text. The strict search in a text is not strict, and an empty text is contained but not found (both refuted).", "quantifier": "all values, lists and texts", "why_tests_cant": "The tests look for a few elements in a few lists.", "anchors": ["template/extra_data.go:612-637"]}
{"id": "C104", "title": "assert and assertWarning", "statement": "assert fails exactly for nil, false, zero and empty values, with the message made of the given arguments or a default one; assertWarning never fails and logs exactly the message with which assert fails.", "quantifier": "all values and arguments", "why_tests_cant": "The tests check a few values.", "anchors": ["template/extra_data.go:662-664", "template/extra_runtime.go:632-654"]}
{"id": "C105", "title": "Placeholder texts, default shell and environment", "statement": "The kinds of placeholder texts are the documented names in capital and small letters and nothing else; sizes are 3 to 10 unless given, and unused for hosts, addresses and links. The default shell is the first one found of a fixed list, and once found it never changes. A variable of the environment set to nothing is set.", "quantifier": "all names, parameters, search paths and environments", "why_tests_cant": "The tests run on one machine with one environment and one search path.", "anchors": ["utils/lorem.go", "utils/exec.go:112-137", "template/extra_utils.go:134-140"]}
{"id": "C106", "title": "List of the templates", "statement": "The list of the templates has one line for each listed template and no other, in the order of the names; the column of the names is just wide enough for the longest one. Without an absolute folder the listing can panic (refuted).", "quantifier": "all sets of templates and absolute folders", "why_tests_cant": "The tests never print templates.", "anchors": ["template/template_help.go:16-41", "template/add_funcs.go:58-66"]}
{"id": "C107", "title": "Decoding of HCL texts", "statement": "White space around an HCL text does not matter; a document is decoded as such, anything else as the value of an assignment; the error of a text that is neither is that of the document; an assignment without value is an error; nothing panics.", "quantifier": "all texts and all decoders", "why_tests_cant": "The tests decode a few texts.", "anchors": ["hcl/hcl.go:51-68"]}
{"id": "C108", "title": "Indexes and slices in razor expressions", "statement": "In an expression with any number of brackets, each one is completed on its own: nothing between them means from 0 to -1, a missing start is 0, a missing end is -1, or 0 when the start is a negative number; anything else is left alone.", "quantifier": "all texts without nested brackets, all indexes and slices", "why_tests_cant": "The tests translate a few expressions with one or two brackets.", "anchors": ["template/razor_repl_expr.go:163-171 indexExpression, negativeSlice"]}
{"id": "C109", "title": "Formatting of terraform files", "statement": "terraform fmt is run in the folders of the terraform files and in no other: once where it fails, twice elsewhere, whatever the order and the number of the files; there is one error for each folder where it fails, which ends with the output of the command; a failure of the second run panics. The error of the command itself is lost (refuted).", "quantifier": "all lists of files, orders of iteration and outcomes of the command", "why_tests_cant": "The command is not installed where the tests run, and one run sees one order of iteration.", "anchors": ["utils/terraform.go:23-50"]}
{"id": "C110", "title": "Structures converted to native maps", "statement": "In the map made of a Go structure an entry is what the last field that gives it gives: a visible exported field whose tag is not a hyphen gives its value under the name of its tag, or else its own, unless it is to be omitted when empty and is empty; a field to be inlined gives the entries of its own map. The tag is the first that is not empty of hcl, json, yaml, xml and toml, and is made of a name and options separated by commas. Two keys, a field that cannot be converted and an inlined field that is not a map are errors. With a key only the last field remains, and a null field makes the conversion panic (both refuted).", "quantifier": "all lists of fields with any names, tags and values", "why_tests_cant": "The tests convert a few structures; none has a key together with several fields, nor a null field without omitempty.", "anchors": ["collections/convert_data.go:206-265", "collections/convert_data.go:274-305"]}
