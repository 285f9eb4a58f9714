{"id": "C01", "title": "\"Confirmed over all paths\" is sound", "statement": "If the path search over a deterministic program reports CONFIRMED, then every assignment of the symbolic inputs has a run of the program that ends confirmed or ignored; in a program without parallel forks no assignment refutes the condition.", "quantifier": "every deterministic program (possibly infinite), every truthful solver that may answer unknown, every sequence of random/heuristic choices, timeouts and aborts, every number of iterations, every assignment", "why_tests_cant": "A unit test runs one search under one seed; soundness is about every interleaving of choices and solver answers.", "anchors": ["crosshair/statespace.py:WorstResultNode", "crosshair/statespace.py:ParallelNode", "crosshair/statespace.py:merge_node_results", "crosshair/statespace.py:StateSpace.choose_possible", "crosshair/statespace.py:StateSpace.bubble_status", "crosshair/core.py:analyze_calltree"]}
{"id": "C02", "title": "A reported counterexample is real", "statement": "If the path search reports REFUTED then some assignment of the symbolic inputs drives the program along a recorded path to a refuted end, provided that the assumptions the program adds are satisfiable on the path.", "quantifier": "every deterministic program, truthful solver, choice sequence, timeout schedule and number of iterations", "why_tests_cant": "Whether an explored path is feasible depends on every solver answer along the path and on how results are merged up the tree.", "anchors": ["crosshair/statespace.py:WorstResultNode.compute_result", "crosshair/statespace.py:StateSpace.find_model_value", "crosshair/statespace.py:StateSpace.bubble_status"]}
{"id": "C03", "title": "The search makes progress and terminates on finite programs", "statement": "For a program whose decision depth is at most d and that is never aborted, the search exhausts the tree after at most 2^d iterations, never follows a path into an exhausted branch, and never changes an exhausted node.", "quantifier": "every finite-depth program, truthful solver and choice sequence", "why_tests_cant": "Termination and non-repetition are claims over all schedules; a test only sees the default random seed.", "anchors": ["crosshair/statespace.py:RandomizedBinaryPathNode.choose", "crosshair/statespace.py:SearchTreeNode.update_result", "crosshair/statespace.py:WorstResultNode._is_exhausted"]}
{"id": "C04", "title": "An unfinished path is never counted as confirmed", "statement": "At every moment of the search, a tree position whose status is CONFIRMED is exhausted; while any reachable position below it is unexplored, timed out or unknown (outside a parallel fork settled by its other side) the overall status is not CONFIRMED.", "quantifier": "every reachable search tree", "why_tests_cant": "It is an invariant over all histories of the tree (documented as a postcondition of get_result but not enforced).", "anchors": ["crosshair/statespace.py:NodeLike.get_result", "crosshair/statespace.py:NodeStem", "crosshair/statespace.py:merge_node_results"]}
{"id": "C05", "title": "Decisions on a path are consistent", "statement": "Within one execution, asking the same boolean question twice gets the same answer, and every answer given is consistent with all constraints accepted so far on that path.", "quantifier": "every sequence of fork/assume/realize requests on a path", "why_tests_cant": "The interplay of the cache of known answers with solver assertions ranges over all request histories.", "anchors": ["crosshair/statespace.py:StateSpace.choose_possible", "crosshair/statespace.py:StateSpace.add"]}
{"id": "C06", "title": "Realizing a symbolic yields one consistent value", "statement": "Realizing an expression returns a value compatible with every constraint of the path; realizing it again returns the same value; and over the whole search each feasible value remains reachable until its branch is exhausted.", "quantifier": "every program, solver, choice sequence", "why_tests_cant": "Depends on the loop of model-value nodes across iterations.", "anchors": ["crosshair/statespace.py:StateSpace.find_model_value", "crosshair/statespace.py:ModelValueNode"]}
{"id": "C07", "title": "A weighted fan-out picks an option that holds", "statement": "Given a list of options whose expressions are jointly exhaustive under the path constraints, smt_fanout returns an option whose expression is true under the assignment followed; every option that is possible can be selected.", "quantifier": "every non-empty option list and every assignment", "why_tests_cant": "Binary search over a list of arbitrary length.", "anchors": ["crosshair/statespace.py:StateSpace.smt_fanout"]}
{"id": "C08", "title": "A path marked as approximate cannot lead to a confirmation", "statement": "When a path calls cap_result_at_unknown (as real-valued floats do), the overall status can no longer be CONFIRMED.", "quantifier": "every program and search history in which some explored path sets the cap", "why_tests_cant": "Depends on aliasing of result objects between tree nodes and on what later iterations recompute; the source comment itself doubts it.", "anchors": ["crosshair/statespace.py:StateSpace.cap_result_at_unknown", "crosshair/statespace.py:StateSpace.bubble_status", "crosshair/libimpl/builtinslib.py:RealBasedSymbolicFloat"]}
{"id": "C09", "title": "The verdict shown to the user matches the search result", "statement": "analyze() reports 'Confirmed over all paths' only if the search tree was exhausted and confirmed and some path met the preconditions; 'Not confirmed' exactly if the status is unknown; 'Unable to meet precondition' only if no explored path got past the preconditions.", "quantifier": "every sequence of per-path outcomes and every stopping point", "why_tests_cant": "Ranges over all sequences of path outcomes, including timeouts at any iteration.", "anchors": ["crosshair/core.py:analyze_calltree", "crosshair/core.py:ConditionCheckable.analyze", "crosshair/core.py:attempt_call"]}
{"id": "C10", "title": "Message collection keeps the most severe message per position", "statement": "After collecting any sequence of messages, exactly one message is kept per (file, line, column), it is one of those collected at that position and none collected there is more severe; output is sorted by position and the severity kept does not depend on the order of arrival.", "quantifier": "every finite sequence of messages", "why_tests_cant": "All orders and multiplicities.", "anchors": ["crosshair/core.py:MessageCollector", "crosshair/core.py:message_sort_key", "crosshair/core.py:run_checkables"]}
{"id": "C11", "title": "Slicing and indexing a lazy concatenation equals slicing the concatenated list", "statement": "For a SequenceConcatenation, every index and every slice (any start/stop/step, missing or negative) gives what a Python list of the concatenated elements gives, including IndexError and ValueError for step 0.", "quantifier": "every pair of sequences, every index, every slice", "why_tests_cant": "Unbounded start/stop/step arithmetic.", "anchors": ["crosshair/simplestructs.py:SequenceConcatenation.__getitem__", "crosshair/simplestructs.py:cut_slice", "crosshair/simplestructs.py:clamp_slice", "crosshair/simplestructs.py:indices"]}
{"id": "C12", "title": "The mutable sequence shell behaves as a Python list", "statement": "ShellMutableSequence item/slice assignment, deletion, insert, append, extend, pop, reverse, sort-replacement and concatenation leave the same list contents and raise the same errors as a Python list.", "quantifier": "every initial contents, every operation sequence, every index or slice", "why_tests_cant": "Histories of operations and all slice arguments.", "anchors": ["crosshair/simplestructs.py:ShellMutableSequence"]}
{"id": "C13", "title": "Slice views show the slice of the underlying sequence", "statement": "A SliceView over [start, stop) has the contents of the slice; slicing a SliceView composes to the slice of the slice.", "quantifier": "every sequence, bounds and nested slice", "why_tests_cant": "Composition of bounds arithmetic.", "anchors": ["crosshair/simplestructs.py:SliceView", "crosshair/simplestructs.py:compose_slices", "crosshair/simplestructs.py:offset_slice"]}
{"id": "C14", "title": "Sequence comparison is equality/lexicographic order", "statement": "Comparing lazy sequences with == and < gives the answers of Python lists holding the same elements.", "quantifier": "every pair of sequences over a totally ordered element type", "why_tests_cant": "All lengths and first-difference positions.", "anchors": ["crosshair/simplestructs.py:SeqBase.__eq__", "crosshair/simplestructs.py:SequenceConcatenation", "crosshair/libimpl/builtinslib.py:SymbolicArrayBasedUniformTuple"]}
{"id": "C15", "title": "The mutable map shell has dict contents", "statement": "After any sequence of set/delete/pop/setdefault/update/clear, ShellMutableMap answers lookup, membership and len as a Python dict with the same history.", "quantifier": "every initial map, every operation sequence, every key", "why_tests_cant": "Histories of operations.", "anchors": ["crosshair/simplestructs.py:ShellMutableMap"]}
{"id": "C16", "title": "The mutable map shell keeps dict iteration order, and its copies are independent and complete", "statement": "Iteration, reversed iteration and popitem follow insertion order as in a dict; a copy has the same length and items as the original.", "quantifier": "every operation sequence", "why_tests_cant": "Histories of operations.", "anchors": ["crosshair/simplestructs.py:ShellMutableMap.__iter__", "crosshair/simplestructs.py:ShellMutableMap._reversed", "crosshair/simplestructs.py:ShellMutableMap.copy", "crosshair/simplestructs.py:ShellMutableMap.popitem"]}
{"id": "C17", "title": "The association-list dict is a dict", "statement": "SimpleDict set/get/delete/pop/popitem/len/iteration agree with a Python dict (contents and order) and keep keys unique.", "quantifier": "every operation sequence", "why_tests_cant": "Histories of operations.", "anchors": ["crosshair/simplestructs.py:SimpleDict"]}
{"id": "C18", "title": "Lazy set combinations are the set operations", "statement": "Union, intersection, difference and symmetric difference of lazily combined sets contain exactly the members they should, iterate each member once, and have the right length.", "quantifier": "every pair of sets", "why_tests_cant": "All contents and all nestings.", "anchors": ["crosshair/simplestructs.py:LazySetCombination", "crosshair/simplestructs.py:LinearSet", "crosshair/simplestructs.py:SetBase"]}
{"id": "C19", "title": "The mutable set shell is a set", "statement": "After any sequence of add/discard/remove/pop/clear/in-place operators, ShellMutableSet has the contents of a Python set with the same history, and results of non in-place operators do not change later.", "quantifier": "every operation sequence", "why_tests_cant": "Histories and aliasing.", "anchors": ["crosshair/simplestructs.py:ShellMutableSet"]}
{"id": "C20", "title": "Integer arithmetic on symbolic ints is Python's", "statement": "//, %, divmod, <<, >>, & with masks, ~, round(ndigits), bit_length, bit_count, comparison and str() of symbolic ints give the value CPython gives for the same operands, or the same error.", "quantifier": "every pair of (unbounded) integers", "why_tests_cant": "Sign cases and unbounded magnitudes; Z3 division is Euclidean while Python's is floor.", "anchors": ["crosshair/libimpl/builtinslib.py:apply_smt", "crosshair/libimpl/builtinslib.py:setup_binops", "crosshair/libimpl/builtinslib.py:SymbolicInt"]}
{"id": "C21", "title": "Integer exponentiation on symbolic ints is Python's", "statement": "a ** b on symbolic ints gives the CPython value.", "quantifier": "every pair of integers", "why_tests_cant": "Sign of the exponent; unbounded magnitude.", "anchors": ["crosshair/libimpl/builtinslib.py:apply_smt"]}
{"id": "C22", "title": "int/bytes conversion round-trips and matches CPython", "statement": "to_bytes gives CPython's bytes or OverflowError for each length, byte order and signedness; from_bytes inverts it.", "quantifier": "every integer, length, byte order, signedness, byte string", "why_tests_cant": "Unbounded integers.", "anchors": ["crosshair/libimpl/builtinslib.py:SymbolicInt.to_bytes", "crosshair/libimpl/builtinslib.py:_int_from_bytes"]}
{"id": "C23", "title": "Bounded-int comparisons are decided correctly", "statement": "A SymbolicBoundedInt with known bounds answers comparisons with any integer as the underlying integer does.", "quantifier": "every value, bounds containing it and compared integer", "why_tests_cant": "All boundary cases.", "anchors": ["crosshair/libimpl/builtinslib.py:SymbolicBoundedInt"]}
{"id": "C24", "title": "Symbolic ranges are Python ranges", "statement": "len, membership, index, indexing, slicing, reversed and equality of a symbolic range agree with the arithmetic progression.", "quantifier": "every start, stop, step != 0", "why_tests_cant": "Unbounded arithmetic with signs.", "anchors": ["crosshair/libimpl/builtinslib.py:SymbolicRange"]}
{"id": "C25", "title": "String searching matches CPython", "statement": "find, rfind, index, count, startswith, endswith with optional start/end arguments give CPython's answers.", "quantifier": "every string, substring and start/end", "why_tests_cant": "All negative and out of range bounds, empty substrings.", "anchors": ["crosshair/abcstring.py:AbcString._find", "crosshair/abcstring.py:AbcString.count", "crosshair/abcstring.py:AbcString.startswith", "crosshair/abcstring.py:_unfindable_range"]}
{"id": "C26", "title": "String splitting, partitioning and replacement match CPython", "statement": "partition, rpartition, replace, split, rsplit, removeprefix, removesuffix, join satisfy CPython's definitions, and joining a split gives the string back.", "quantifier": "every string, separator and count limit", "why_tests_cant": "All overlaps and counts.", "anchors": ["crosshair/abcstring.py:AbcString.partition", "crosshair/abcstring.py:AbcString.replace", "crosshair/libimpl/builtinslib.py:AnySymbolicStr.split", "crosshair/libimpl/builtinslib.py:AnySymbolicStr.rsplit", "crosshair/libimpl/builtinslib.py:split_parts_lazy"]}
{"id": "C27", "title": "String padding and case-preserving layout match CPython", "statement": "ljust, rjust, center, zfill, expandtabs, strip family and splitlines give CPython's answers.", "quantifier": "every string, width, fill character", "why_tests_cant": "All widths, signs and whitespace patterns.", "anchors": ["crosshair/libimpl/builtinslib.py:AnySymbolicStr"]}
{"id": "C28", "title": "Hex conversion of bytes matches CPython", "statement": "bytes.fromhex inverts bytes.hex; hex with a separator groups digits as CPython does.", "quantifier": "every byte string, separator and group size", "why_tests_cant": "All lengths modulo group sizes.", "anchors": ["crosshair/libimpl/builtinslib.py:BytesLike.hex", "crosshair/libimpl/builtinslib.py:SymbolicBytes.fromhex"]}
{"id": "C29", "title": "The UTF-8 codec round-trips and rejects invalid input", "statement": "Decoding the encoding of any string gives the string; decoding accepts exactly well-formed UTF-8.", "quantifier": "every sequence of code points and every byte string", "why_tests_cant": "All byte sequences.", "anchors": ["crosshair/libimpl/encodings/utf_8.py", "crosshair/libimpl/encodings/_encutil.py"]}
{"id": "C30", "title": "Base64 round-trips and matches binascii", "statement": "a2b_base64(b2a_base64(x)) == x for all x; decoding of arbitrary text gives binascii's result or error.", "quantifier": "every byte string and every text, strict and non-strict", "why_tests_cant": "All lengths and padding patterns.", "anchors": ["crosshair/libimpl/binasciilib.py"]}
{"id": "C31", "title": "struct packing matches CPython", "statement": "For every format of integer codes, unpack(pack(v)) == v, out of range values are rejected, sizes are those of calcsize, and buffers of the wrong size are rejected.", "quantifier": "every format, every value list, every buffer", "why_tests_cant": "All combinations of codes, counts, and byte orders.", "anchors": ["crosshair/libimpl/structlib.py"]}
{"id": "C32", "title": "Character-class masks denote the right sets of code points", "statement": "Union, intersection, subtraction and inversion of CharMask values contain exactly the code points they should, and masks stay normalized.", "quantifier": "every mask and every code point", "why_tests_cant": "All interval overlaps.", "anchors": ["crosshair/unicode_categories.py:CharMask"]}
{"id": "C33", "title": "Option overlay and limit splitting", "statement": "The options in force are, for each one, the command line's value, else the innermost scope's directive that sets it, else the default; directives are accepted exactly when well formed, known, valid and not repeated; default limits combine as documented; splitting the limits for a priority in [0, 1] gives two parts that add up to the iterations and neither of which exceeds the whole.", "quantifier": "every option set, directive text, scope chain and priority", "why_tests_cant": "All combinations of set/unset options.", "anchors": ["crosshair/options.py"]}
{"id": "C34", "title": "Minimisation finds the smallest realizable value", "statement": "The optimizing path search's bisection returns the least value of the score for which a path exists.", "quantifier": "every score predicate and bound", "why_tests_cant": "All bounds and solver answers.", "anchors": ["crosshair/path_search.py"]}
{"id": "C35", "title": "deque model behaves as collections.deque", "statement": "ListBasedDeque operations leave the contents collections.deque leaves, including maxlen.", "quantifier": "every operation sequence, every maxlen", "why_tests_cant": "Histories of operations.", "anchors": ["crosshair/libimpl/collectionslib.py:ListBasedDeque"]}
{"id": "C36", "title": "Slicing symbolic tuples matches Python", "statement": "Indexing and slicing of array-based symbolic tuples give Python's result for every index and slice.", "quantifier": "every tuple, index, slice", "why_tests_cant": "All steps and bounds.", "anchors": ["crosshair/libimpl/builtinslib.py:SymbolicArrayBasedUniformTuple.__getitem__", "crosshair/libimpl/builtinslib.py:process_slice", "crosshair/libimpl/builtinslib.py:clip_range"]}
{"id": "C37", "title": "Lazily created int sequences (strings, bytes) are fixed sequences", "statement": "The lazily materialised characters of a symbolic string behave as one fixed sequence of the string's length: indexing and slicing return the same elements whatever was accessed before.", "quantifier": "every access history", "why_tests_cant": "Depends on the order of earlier accesses.", "anchors": ["crosshair/libimpl/builtinslib.py:SymbolicBoundedIntTuple"]}
{"id": "C38", "title": "int() and float parsing of symbolic strings matches CPython", "statement": "int(s), int(s, base) give CPython's value or ValueError; float(s) of a plain decimal is the number written.", "quantifier": "every string and base", "why_tests_cant": "All digit/sign/whitespace/underscore combinations.", "anchors": ["crosshair/libimpl/builtinslib.py:_int"]}
{"id": "C39", "title": "list.index, str.join and container reprs match CPython", "statement": "list.index(x, start, stop) returns the index in the whole list; str.join joins any iterable; repr of a tuple, list or dict is Python's.", "quantifier": "every list, value, bounds; every tuple", "why_tests_cant": "All bounds.", "anchors": ["crosshair/libimpl/builtinslib.py:_list_index", "crosshair/libimpl/builtinslib.py:_tuple_repr"]}
{"id": "C40", "title": "Symbolic randomness stays in range", "statement": "random() is in [0,1), randrange/randint/choice/_randbelow stay in range, and copies of a generator replay the same values.", "quantifier": "every call history and copy point", "why_tests_cant": "Histories and copies.", "anchors": ["crosshair/libimpl/randomlib.py"]}
{"id": "C41", "title": "Contract enforcement order", "statement": "With enforcement on, a call runs preconditions before the body and postconditions after it, raises PreconditionFailed exactly when a precondition is false, PostconditionFailed exactly when a postcondition is false after a normal return, and does not enforce contracts recursively while checking them.", "quantifier": "every contract, body outcome and nesting of calls", "why_tests_cant": "All nestings and outcomes.", "anchors": ["crosshair/enforce.py"]}
{"id": "C42", "title": "gcd, copysign and float predicates match math", "statement": "math.gcd, math.copysign, isfinite, isinf and isnan on symbolics agree with the mathematical definition.", "quantifier": "every list of integers; every pair of floats by sign and magnitude", "why_tests_cant": "Unbounded integers.", "anchors": ["crosshair/libimpl/mathlib.py"]}
{"id": "C43", "title": "A slice of a list is independent of the list", "statement": "Slicing a concrete list with symbolic bounds gives the items of the slice, and later changes of the list do not show in the slice.", "quantifier": "every list, every pair of bounds, every later mutation", "why_tests_cant": "Needs the slice to be read after arbitrary later mutations.", "anchors": ["crosshair/opcode_intercept.py:SymbolicSubscriptInterceptor", "crosshair/opcode_intercept.py:SymbolicSliceInterceptor", "crosshair/simplestructs.py:SliceView"]}
{"id": "C44", "title": "A symbolic list can be extended by any iterable", "statement": "After extend (or slice assignment) with any iterable, the list holds its old items followed by those of the iterable, and can be used as before.", "quantifier": "every list, every iterable, sequence or iterator", "why_tests_cant": "All kinds of iterables.", "anchors": ["crosshair/simplestructs.py:sequence_evaluation", "crosshair/simplestructs.py:ShellMutableSequence.extend"]}
{"id": "C45", "title": "In-place repetition changes the list object itself", "statement": "x *= n leaves x bound to the same object, whose contents are now repeated n times, as seen through every other name.", "quantifier": "every list and repeat count, every aliasing of names", "why_tests_cant": "Aliasing.", "anchors": ["crosshair/simplestructs.py:ShellMutableSequence.__imul__"]}
{"id": "C46", "title": "Writing through a memoryview changes exactly the viewed bytes", "statement": "m[k] = x and m[a:b] = v through a (sliced) memoryview of a bytearray change the bytes of that part of the bytearray, or raise as Python does.", "quantifier": "every bytearray, view bounds, index, slice and value", "why_tests_cant": "Composition of two slices with negative and absent bounds.", "anchors": ["crosshair/libimpl/builtinslib.py:SymbolicMemoryView.__setitem__", "crosshair/simplestructs.py:compose_slices"]}
{"id": "C47", "title": "String ordering is lexicographic", "statement": "For any two strings, <, <=, >, >= under symbolic execution answer as the code-point lexicographic order does, with a proper prefix first; the comparison never falls off its end.", "quantifier": "all pairs of strings, all four comparison operators", "why_tests_cant": "The loop must be right for common prefixes and lengths of every size.", "anchors": ["crosshair/libimpl/builtinslib.py: AnySymbolicStr._cmp_op"]}
{"id": "C48", "title": "bytes case mapping and stripping match CPython", "statement": "lower, upper and swapcase of bytes and bytearray change exactly the ASCII letters and always give bytes; lstrip, rstrip and strip remove the longest run of the given bytes (ASCII whitespace by default).", "quantifier": "all byte strings, all strip sets", "why_tests_cant": "The branch-free arithmetic and the strip loops must be right for every byte value and length.", "anchors": ["crosshair/libimpl/builtinslib.py: BytesLike._ch_swap_ascii_case, lower, upper, swapcase, lstrip, rstrip, strip"]}
{"id": "C49", "title": "A bytearray holds only bytes and behaves as CPython's", "statement": "Whatever sequence of item, slice, append, extend, insert, delete, pop, reverse and repeat operations is applied to a bytearray, results, exceptions and contents are CPython's; values outside 0..255 are rejected with ValueError and change nothing.", "quantifier": "all histories of bytearray operations, all arguments", "why_tests_cant": "Histories are unbounded, and one unchecked path lets an invalid value in.", "anchors": ["crosshair/libimpl/builtinslib.py: SymbolicByteArray, _as_byte_value, _validated_byte_values, _bytearray, _bytes"]}
{"id": "C50", "title": "Incremental UTF-8 decoding equals one-shot decoding", "statement": "Feeding bytes to an incremental UTF-8 decoder in any pieces, with the last call final, yields in total what decoding all the bytes at once yields, including errors for a truncated end.", "quantifier": "all byte strings, all ways of cutting them into pieces", "why_tests_cant": "Cuts can fall inside any multi-byte sequence.", "anchors": ["crosshair/libimpl/encodings/_encutil.py: _getregentry.StemIncrementalDecoder", "crosshair/libimpl/encodings/utf_8.py: Utf8StemEncoder._decode_chunk"]}
{"id": "C51", "title": "ASCII and Latin-1 codecs are exact", "statement": "encode and decode with ascii and latin-1 keep characters below 128 (256), report the first other character in strict mode, and pass each other character to the error handler.", "quantifier": "all strings and bytes, all per-character error handlers", "why_tests_cant": "Errors may occur at any set of positions.", "anchors": ["crosshair/libimpl/encodings/_encutil.py: StemEncoder.encode, decode", "crosshair/libimpl/encodings/ascii.py: AsciiStemEncoder", "crosshair/libimpl/encodings/latin_1.py: Latin1StemEncoder"]}
{"id": "C52", "title": "Subscripting a concrete container by a symbolic number matches CPython", "statement": "container[k] for a concrete list, tuple or dict and a symbolic int, bool or float k gives the element CPython gives, or IndexError / KeyError / TypeError in exactly the same cases.", "quantifier": "every container, every mix of element types, every key value, negative and out of range indices included", "why_tests_cant": "All containers and all values of the key.", "anchors": ["crosshair/opcode_intercept.py:MultiSubscriptableContainer.__getitem__", "crosshair/opcode_intercept.py:reachable_sequence_pairs"]}
{"id": "C53", "title": "all() and any() over symbolic conditions match CPython", "statement": "all(it) and any(it) give CPython's result or exception and take the same items from the iterator.", "quantifier": "every sequence of items (symbolic or not, with raising __bool__) and every iterator behaviour", "why_tests_cant": "All mixes of items, and iterators with effects.", "anchors": ["crosshair/libimpl/builtinslib.py:_all", "crosshair/libimpl/builtinslib.py:_any"]}
{"id": "C54", "title": "Dates follow the Gregorian calendar", "statement": "For any date arguments and any sequence of date operations on them and on the dates made from them (construction, fromordinal, fromisocalendar, replace, field reads, toordinal, weekday, isoweekday, isocalendar, comparison, adding and subtracting days, differences), every answer and every exception under analysis is the one the proleptic Gregorian calendar and ISO 8601 week rules give, whether a date is held as a day number, as year/month/day, or both.", "quantifier": "all dates from 0001-01-01 to 9999-12-31, all operation sequences, all integer arguments that fit a C int, all choices of which dates are concrete", "why_tests_cant": "Calendar arithmetic has irregular cases (leap centuries, week-53 years, month ends) and two lazily synchronised representations; the interplay over sequences of calls cannot be enumerated.", "anchors": ["crosshair/libimpl/datetimelib.py:date", "crosshair/libimpl/datetimelib.py:_ord2ymd", "crosshair/libimpl/datetimelib.py:_ymd2ord", "crosshair/libimpl/datetimelib.py:_isoweek1monday"]}
{"id": "C55", "title": "Symbolic dates are all dates, once", "statement": "A date argument under analysis can take every value from 0001-01-01 to 9999-12-31 and no other; reading year, month and day of it neither loses nor adds values: the constraints made for the three fields have exactly one solution for each date.", "quantifier": "all dates; all triples of integers", "why_tests_cant": "A missing or doubled solution of the constraints loses paths or invents dates; there are 3.6 million dates and unbounded triples.", "anchors": ["crosshair/libimpl/datetimelib.py:_symbolic_date_ordinal", "crosshair/libimpl/datetimelib.py:date._decompose", "crosshair/libimpl/datetimelib.py:_day_in_month_constraint"]}
{"id": "C56", "title": "Timedelta arithmetic is exact", "statement": "For any timedelta arguments, construction from any whole numbers of weeks, days, hours, minutes, seconds, milliseconds and microseconds, and +, -, *, /, //, %, divmod, unary -, +, abs, bool and comparisons give the microsecond-exact CPython result under analysis (true division rounded half to even, OverflowError exactly outside +-999999999 days), also when one operand was made before the analysis; a timedelta argument can be every timedelta.", "quantifier": "all timedeltas, all integer and rational factors", "why_tests_cant": "Normalisation, rounding of ties, negative values and overflow bounds interact over an unbounded range.", "anchors": ["crosshair/libimpl/datetimelib.py:timedelta", "crosshair/libimpl/datetimelib.py:_divide_and_round", "crosshair/libimpl/datetimelib.py:make_registrations"]}
{"id": "C57", "title": "Datetimes behave as moments", "statement": "Differences, comparisons and hashes of datetimes under analysis are those of the moments they stand for (local time less UTC offset, with CPython's rules for naive, same-zone, repeated-hour and missing-hour times); adding or subtracting a timedelta gives the shifted moment or OverflowError exactly outside years 1-9999; astimezone keeps the instant.", "quantifier": "all datetimes, all time zone objects with offsets under 24 hours (also fold-dependent ones), all timedeltas", "why_tests_cant": "The offset may depend on every field and on fold; rollovers and bounds occur in combination.", "anchors": ["crosshair/libimpl/datetimelib.py:datetime._cmp", "crosshair/libimpl/datetimelib.py:datetime.__add__", "crosshair/libimpl/datetimelib.py:datetime.__sub__", "crosshair/libimpl/datetimelib.py:datetime.__hash__", "crosshair/libimpl/datetimelib.py:datetime.astimezone"]}
{"id": "C58", "title": "Dates and datetimes do not compare", "statement": "A date and a datetime are never equal, and ordering them raises TypeError, whichever of the two was made under analysis.", "quantifier": "all dates and datetimes, all six comparisons, all origins of the operands", "why_tests_cant": "Which of the two methods answers depends on the classes of both operands.", "anchors": ["crosshair/libimpl/datetimelib.py:date.__eq__", "crosshair/libimpl/datetimelib.py:datetime.__eq__", "crosshair/libimpl/datetimelib.py:date.__lt__"]}
{"id": "C59", "title": "Times compare by UTC and equal times hash alike", "statement": "Two times of day under analysis compare by their time less UTC offset; naive and aware ones are unequal and unordered; equal times have equal hashes.", "quantifier": "all times, all fixed offsets under 24 hours, all six comparisons", "why_tests_cant": "Offsets have microsecond resolution; tests use whole hours.", "anchors": ["crosshair/libimpl/datetimelib.py:time._cmp", "crosshair/libimpl/datetimelib.py:time.__hash__"]}
{"id": "C60", "title": "Symbolic datetimes, times and time zones cover all values", "statement": "A datetime, time or timezone argument under analysis can take every value of its type.", "quantifier": "all datetimes with both folds, all times, all timezone offsets strictly between -24h and 24h", "why_tests_cant": "A value that is never generated can never be reported as a counterexample, and the absence is invisible to tests.", "anchors": ["crosshair/libimpl/datetimelib.py:make_registrations"]}
{"id": "C61", "title": "ISO texts of dates and times round-trip", "statement": "isoformat of a date, time or datetime (any timespec, any fixed offset) is the ISO 8601 text of the value; fromisoformat reads that text back to the same value cut to the timespec, reads every text of the form YYYY-MM-DD[*HH[:MM[:SS[.fff[fff]]]][+-HH:MM[:SS[.ffffff]]]], and raises ValueError on texts that name no date, as CPython does.", "quantifier": "all dates, times, datetimes, fixed offsets, separators, timespecs; all strings", "why_tests_cant": "The set of strings is unbounded and the parser works by position.", "anchors": ["crosshair/libimpl/datetimelib.py:_format_time", "crosshair/libimpl/datetimelib.py:_format_offset", "crosshair/libimpl/datetimelib.py:_parse_isoformat_date", "crosshair/libimpl/datetimelib.py:_parse_isoformat_time", "crosshair/libimpl/datetimelib.py:_parse_hh_mm_ss_ff", "crosshair/libimpl/datetimelib.py:date.fromisoformat", "crosshair/libimpl/datetimelib.py:time.fromisoformat", "crosshair/libimpl/datetimelib.py:datetime.fromisoformat"]}
{"id": "C62", "title": "Analysed code cannot cause side effects", "statement": "While code is being analysed, an operation that reaches outside of the process (opening a file for writing, starting a process, the network, changing the file system or registry) raises SideEffectDetected before it takes effect, unless the user unblocked it or CrossHair opened the protection for its own import step; this does not depend on which operations happened before, and protection is back to what it was when a temporary region ends, normally or by an exception.", "quantifier": "all programs of operations, nested protected/unprotected regions and exception handlers, all --unblock rules", "why_tests_cant": "The protection caches its decisions and its configuration is global mutable state; a stale decision or a wrongly restored setting shows only after particular histories, and its failure destroys user data.", "anchors": ["crosshair/auditwall.py:audithook", "crosshair/auditwall.py:make_handler", "crosshair/auditwall.py:enabled_auditwall", "crosshair/auditwall.py:opened_auditwall", "crosshair/auditwall.py:engage_auditwall"]}
{"id": "C63", "title": "--unblock allows exactly what it names", "statement": "An --unblock rule EVENT or EVENT:ARG:... allows the operations whose event and leading arguments it names; in particular the rule that an error message proposes, or a shorter form of it, allows that operation; rules have no influence on other events.", "quantifier": "all lists of rules, all events and arguments", "why_tests_cant": "Rules are sorted, grouped and merged into a prefix tree; interactions between rules for one event are combinatorial.", "anchors": ["crosshair/auditwall.py:_update_special_handlers", "crosshair/auditwall.py:_make_prefix_based_handler", "crosshair/auditwall.py:match_tokens", "crosshair/auditwall.py:explain"]}
{"id": "C64", "title": "diffbehavior reports exactly the differences", "statement": "Every difference printed by `crosshair diffbehavior` is one some legal input exhibits, and if the command says that all paths were exhausted, the two functions behave alike (return value, exception, arguments afterwards) on every legal input.", "quantifier": "all pairs of functions, all solver answers and random choices, all points where a path may be cut short, all iteration limits, all notions of equal exceptions", "why_tests_cant": "the claim is about every input and every exploration order; a test runs one pair of functions with one schedule", "anchors": ["crosshair/diff_behavior.py:diff_behavior_with_signature", "crosshair/diff_behavior.py:run_iteration", "crosshair/diff_behavior.py:check_exception_equivalence", "crosshair/diff_behavior.py:describe_behavior", "crosshair/main.py:diffbehavior"]}
{"id": "C65", "title": "cover examples are real and complete", "statement": "Every example printed by `crosshair cover` describes what the function does on the inputs shown, and when the paths are exhausted every opcode some legal input executes is executed by an example.", "quantifier": "all functions, all solver answers and random choices, all points where a path may be cut short", "why_tests_cant": "the claim is about every input and every exploration order", "anchors": ["crosshair/path_cover.py:path_cover", "crosshair/core.py:explore_paths", "crosshair/tracers.py:CoverageTracingModule"]}
{"id": "C66", "title": "the examples shown are a greedy cover", "statement": "The examples `crosshair cover` and `crosshair diffbehavior` show are chosen one after the other, each covering most of what is not yet covered, shorter ones preferred; together they cover all that the examples found cover.", "quantifier": "all sets of examples with any coverage and any length of text", "why_tests_cant": "the number of sets of examples is unbounded", "anchors": ["crosshair/path_cover.py:path_cover", "crosshair/diff_behavior.py:diff_behavior", "crosshair/diff_behavior.py:diff_scorer"]}
{"id": "C67", "title": "results are compared like Python compares them, but for the documented tolerances", "statement": "Two results pass for the same exactly if they are == in Python, except that NaN is like NaN, values that could not be realized are like anything, objects without an equality of their own are like others of their type and iterators are compared by what they give.", "quantifier": "all pairs of nested values", "why_tests_cant": "values nest without bound and the clauses interact", "anchors": ["crosshair/behavior_compare.py:flexible_equal", "crosshair/behavior_compare.py:_is_nan", "crosshair/behavior_compare.py:ExecutionResult"]}
{"id": "C68", "title": "generated tests have names of their own and pass", "statement": "The tests written by `crosshair cover --example_output_format=pytest` have different names, so that none hides another, and pass as long as the functions behave as they did.", "quantifier": "all function names, all numbers of examples, all results", "why_tests_cant": "a test sees a few names and results", "anchors": ["crosshair/path_cover.py:output_pytest_paths", "crosshair/main.py:cover"]}
{"id": "C69", "title": "Pattern.match and fullmatch agree with Python's engine", "statement": "On a symbolic string, `Pattern.match` and `Pattern.fullmatch` (with any pos and endpos) succeed exactly when Python's regular expression engine does, with the same span for the match and for every group.", "quantifier": "all patterns, strings, pos and endpos", "why_tests_cant": "which of several ways to match is preferred depends on the whole pattern and string", "anchors": ["crosshair/libimpl/relib.py:_internal_match_patterns", "crosshair/libimpl/relib.py:_match_pattern", "crosshair/libimpl/relib.py:_match", "crosshair/libimpl/relib.py:_fullmatch"]}
{"id": "C70", "title": "Pattern.search and finditer find the matches Python finds", "statement": "On a symbolic string, `Pattern.search` gives the leftmost match, and `Pattern.finditer` all matches that do not overlap, empty ones included, as Python's engine does.", "quantifier": "all patterns, strings, pos and endpos", "why_tests_cant": "empty matches next to others, and matches at the very end, are corner cases of every pattern", "anchors": ["crosshair/libimpl/relib.py:_search", "crosshair/libimpl/relib.py:_finditer_symbolic"]}
{"id": "C71", "title": "Pattern.sub and subn replace the matches Python replaces", "statement": "On a symbolic string, `Pattern.subn` replaces the first count matches (all if count is 0), keeps the text between them, and counts them, as Python does.", "quantifier": "all patterns, strings, replacements and counts", "why_tests_cant": "the recursion on what remains of the string must not change what matches", "anchors": ["crosshair/libimpl/relib.py:_subn", "crosshair/libimpl/relib.py:_sub"]}
{"id": "C72", "title": "match objects answer as Python's", "statement": "For a match of a pattern on a symbolic string, `group`, `groups`, `groupdict`, `start`, `end`, `span`, `lastindex` and `expand` give what Python's match objects give.", "quantifier": "all matches, groups and templates", "why_tests_cant": "groups that took no part, nested groups and escapes combine freely", "anchors": ["crosshair/libimpl/relib.py:_Match", "crosshair/libimpl/relib.py:_MatchPart"]}
{"id": "C73", "title": "character classes cover the characters they match", "statement": "The set of code points CrossHair computes for a one-character pattern (a literal, its negation, a set, a range, \\d, \\s, \\w, a dot) under the flags IGNORECASE, ASCII and DOTALL is the set of characters that Python's re matches with it.", "quantifier": "all one-character patterns, flags and code points", "why_tests_cant": "there are 1,114,112 code points and any set of ranges of them", "anchors": ["crosshair/libimpl/relib.py:single_char_mask", "crosshair/libimpl/relib.py:unicode_ignorecase_mask", "crosshair/libimpl/relib.py:caseable_chars"]}
{"id": "C74", "title": "In-memory text files", "statement": "A StringIO opened on symbolic text, in any of the five newline modes, answers every sequence of read, readline, write, seek, tell, truncate, getvalue, newlines and close calls with the values and exceptions of io.StringIO, including newline translation, the newlines seen, positions beyond the end and use after close.", "quantifier": "all newline modes, initial texts and sequences of method calls with any arguments", "why_tests_cant": "The state (text, position, newlines seen, closed) depends on the whole history of calls; tests try a few short sequences, mostly without limits or positions beyond the end.", "anchors": ["crosshair/libimpl/iolib.py:BackedStringIO", "crosshair/libimpl/iolib.py:make_string_io"]}
{"id": "C75", "title": "Contracts are inherited", "statement": "Every implementation of a method is verified against each contract stated for that method in its class and superclasses: all their postconditions are checked and their exceptions expected, in every call that meets the stated preconditions; the invariants of the class and of its superclasses are assumed before and checked after each public method and checked after __init__; and nothing is assumed or checked that none of these classes states.", "quantifier": "all class hierarchies, combinations of contract kinds, methods, contracts and invariants", "why_tests_cant": "Tests cover a handful of two-level hierarchies; which conditions apply depends on the whole hierarchy and on which classes restate what.", "anchors": ["crosshair/condition_parser.py:merge_fn_conditions", "crosshair/condition_parser.py:merge_method_conditions", "crosshair/condition_parser.py:ConcreteConditionParser.get_class_conditions", "crosshair/condition_parser.py:CompositeConditionParser"]}
{"id": "C76", "title": "Contracts in docstrings are read as written", "statement": "From a docstring with pre:, post: and inv: sections, on one line or with an indented body, exactly the written expressions are taken as contracts, in order and with their line numbers; prose, comments and blank lines contribute nothing; the names in post[...] are the ones read; brackets elsewhere or given twice are reported; and nothing is taken as a contract that is not text of the line it is attributed to.", "quantifier": "all docstrings built from prose, one-line sections and indented sections, all texts for the last part, all character classes", "why_tests_cant": "A test checks a few docstrings; indentation, comments, blank lines and bracketed names combine freely in users' docstrings.", "anchors": ["crosshair/condition_parser.py:parse_sections", "crosshair/condition_parser.py:get_doc_lines", "crosshair/condition_parser.py:Pep316Parser.get_fn_conditions"]}
{"id": "C77", "title": "Copies of arguments are faithful and independent", "statement": "The copy taken of arguments has the shape of the original, cycles and sharing included; it has nothing in common with the original that can change, so what is done to one does not show in the other; the original is not modified; a realized copy has nothing symbolic in it; and copying comes to an end.", "quantifier": "all object graphs, with any cycles and sharing, and all modes of copying", "why_tests_cant": "A test copies a few structures; sharing and cycles through instances, tuples and lists combine without bound.", "anchors": ["crosshair/copyext.py:deepcopyext", "crosshair/copyext.py:_deepconstruct", "crosshair/core.py:deep_realize"]}
{"id": "C78", "title": "The signature of a constructor accepts the calls of the class", "statement": "For a class with a __new__ and an __init__, the signature its arguments are generated from is defined, accepts every call that both accept (with arguments that can be given by keyword given so), types included, and accepts nothing that is unknown to one that takes no variable arguments.", "quantifier": "all pairs of signatures, all calls, all types", "why_tests_cant": "A test combines two or three signatures; positional-only, keyword-only and variable parameters with shared names combine in thousands of ways.", "anchors": ["crosshair/core.py:get_constructor_signature", "crosshair/dynamic_typing.py:intersect_signatures"]}
{"id": "C79", "title": "json.dumps writes JSON that json.loads reads back", "statement": "For every value made of None, booleans, integers, floats, strings, lists, tuples and dicts, and all options that keep separators and indentation blank around comma and colon, json.dumps writes a JSON text (ASCII only with ensure_ascii, without NaN and infinities unless allow_nan), and the text is laid out and escaped as documented, json.loads of it gives the value back, with lists for tuples and text for keys; any other value raises TypeError or ValueError.", "quantifier": "all values, all options of dumps, all representations of numbers that are inverse to their conversions", "why_tests_cant": "Tests encode a few values; escapes, surrogates, nesting, key types, separators and indentation combine without bound.", "anchors": ["crosshair/libimpl/jsonlib.py:_make_iterencode", "crosshair/libimpl/jsonlib.py:py_encode_basestring_ascii", "crosshair/libimpl/jsonlib.py:py_encode_basestring", "crosshair/libimpl/jsonlib.py:dumps"]}
{"id": "C80", "title": "json.loads accepts exactly the JSON texts", "statement": "json.loads returns the value of every JSON text (with NaN and infinities, and control characters in strings when not strict), returns nothing for any other text, ends on every text, and for texts that are not JSON raises JSONDecodeError, or what int or float raise for a number.", "quantifier": "all texts, strict or not", "why_tests_cant": "Tests parse a few texts; a wrong boundary in a scanner shows only on particular inputs.", "anchors": ["crosshair/libimpl/jsonlib.py:py_make_scanner", "crosshair/libimpl/jsonlib.py:py_scanstring", "crosshair/libimpl/jsonlib.py:JSONObject", "crosshair/libimpl/jsonlib.py:JSONArray", "crosshair/libimpl/jsonlib.py:_decode_uXXXX"]}
{"id": "C81", "title": "json.loads of bytes finds their encoding", "statement": "The bytes of any JSON text in UTF-8, UTF-16 or UTF-32, of either byte order and with or without a byte order mark, are recognized as being in that encoding, and json.loads of them gives the value of the text.", "quantifier": "all JSON texts, all encodings", "why_tests_cant": "Tests decode a few texts; the guess depends on which of the first four bytes are zero.", "anchors": ["crosshair/libimpl/jsonlib.py:detect_encoding", "crosshair/libimpl/jsonlib.py:loads"]}
{"id": "C82", "title": "Skipping calls does not change what is reported", "statement": "When the analysis skips calls of functions with contracts, replacing their results by free values, a reported counterexample is what the function really does on these arguments; if no path with skipped calls is reported then the run without skipping is not wrong; and the real outcome is among the paths, so that they are not all ignored.", "quantifier": "all programs with calls of contracted functions, all choices of calls to skip, all replacement values", "why_tests_cant": "Tests try a few functions; whether a replaced result is reconciled with the real one depends on what the program does with it afterwards.", "anchors": ["crosshair/core.py:ShortCircuitingContext.make_interceptor", "crosshair/core.py:consider_shortcircuit", "crosshair/core.py:shortcircuit", "crosshair/core.py:attempt_call", "crosshair/enforce.py:EnforcementWrapper", "crosshair/statespace.py:StateSpace.detach_path"]}
{"id": "C83", "title": "Decimal plus, minus and abs round into the context", "statement": "For a decimal under analysis, +x, -x and abs(x) give the exact number rounded once into the given context under its rounding mode: the greatest (FLOOR), least (CEILING) or nearest (HALF modes) number that the context can hold; a number the context can hold is unchanged. The signals set or raised are exactly those the decimal specification demands (Inexact, Rounded, Subnormal, Underflow, Overflow, Clamped), in the fixed order.", "quantifier": "every finite decimal of any length and exponent, every context and every set of traps", "why_tests_cant": "coefficients, exponents and contexts are unbounded; the interesting cases are ties, carries into a new digit and the edges of the exponent range", "anchors": ["crosshair/libimpl/decimallib.py:Decimal._fix", "crosshair/libimpl/decimallib.py:Decimal.__pos__", "crosshair/libimpl/decimallib.py:Decimal.__neg__", "crosshair/libimpl/decimallib.py:Decimal.__abs__"]}
{"id": "C84", "title": "Decimal addition and subtraction are exact, then rounded once", "statement": "For finite decimals x and y, x + y and x - y give the exact sum or difference rounded once into the context, with the smaller of the two exponents when no digits are lost, the right sign of a zero result, and exactly the demanded signals; in particular the shortcut that replaces an operand too small to matter never changes the result.", "quantifier": "every pair of finite decimals and every context", "why_tests_cant": "the shortcut only matters for operands of very different size and for halfway cases, which tests sample thinly", "anchors": ["crosshair/libimpl/decimallib.py:Decimal.__add__", "crosshair/libimpl/decimallib.py:Decimal.__sub__", "crosshair/libimpl/decimallib.py:_normalize"]}
{"id": "C85", "title": "Decimal multiplication and fused multiply-add are rounded once", "statement": "For finite decimals, x * y gives the exact product rounded once into the context and x.fma(y, z) gives the exact x*y+z rounded once (the product is not rounded first).", "quantifier": "every pair or triple of finite decimals and every context", "why_tests_cant": "double rounding only shows on halfway cases of the intermediate product", "anchors": ["crosshair/libimpl/decimallib.py:Decimal.__mul__", "crosshair/libimpl/decimallib.py:Decimal.fma"]}
{"id": "C86", "title": "Decimal division is correctly rounded", "statement": "For finite decimals with a nonzero divisor, x / y gives the exact quotient rounded once into the context; a quotient with a finite decimal expansion that fits is delivered exactly with the exponent nearest to the ideal one; division of a nonzero number by zero signals DivisionByZero, 0/0 InvalidOperation.", "quantifier": "every pair of finite decimals and every context", "why_tests_cant": "the quotient has infinitely many digits; correctness of the sticky last digit is a statement about all of them", "anchors": ["crosshair/libimpl/decimallib.py:Decimal.__truediv__"]}
{"id": "C87", "title": "Decimal integer division and remainders are exact", "statement": "For finite decimals with nonzero divisor, x // y is the exact quotient cut off to an integer, x % y is exactly x - (x // y) * y (then rounded), divmod gives both, and remainder_near uses the nearest quotient (ties to even); all signal InvalidOperation exactly when the integer quotient has more digits than the precision.", "quantifier": "every pair of finite decimals and every context", "why_tests_cant": "operands may differ by any power of ten, and the limit on the quotient is an exact digit count", "anchors": ["crosshair/libimpl/decimallib.py:Decimal._divide", "crosshair/libimpl/decimallib.py:Decimal.__divmod__", "crosshair/libimpl/decimallib.py:Decimal.__mod__", "crosshair/libimpl/decimallib.py:Decimal.__floordiv__", "crosshair/libimpl/decimallib.py:Decimal.remainder_near"]}
{"id": "C88", "title": "Decimal operations on NaN and infinity", "statement": "An operation with a NaN operand returns that NaN (a signaling one first, then the left one), quiet, with its sign and the payload digits that fit, and signals InvalidOperation exactly for a signaling NaN; operations on infinities, fused multiply-add included, follow the decimal specification's table.", "quantifier": "every pair of operands with a NaN or an infinity, every context", "why_tests_cant": "operand kinds multiply, and payload truncation depends on precision and clamping", "anchors": ["crosshair/libimpl/decimallib.py:Decimal._check_nans", "crosshair/libimpl/decimallib.py:Decimal._fix_nan", "crosshair/libimpl/decimallib.py:Decimal.__add__"]}
{"id": "C89", "title": "Decimal comparisons are the exact numerical order", "statement": "For decimals that are not NaN, <, <=, >, >=, == compare the exact values (infinities at the ends, -0 equal to 0, equal values with different exponents equal) and signal nothing; with a NaN, the orderings answer false and signal InvalidOperation, == answers false and signals only for a signaling NaN.", "quantifier": "every pair of decimals, every context", "why_tests_cant": "comparison pads digit strings; exponents and digit counts are unbounded", "anchors": ["crosshair/libimpl/decimallib.py:Decimal._cmp", "crosshair/libimpl/decimallib.py:Decimal.__lt__", "crosshair/libimpl/decimallib.py:Decimal.__eq__", "crosshair/libimpl/decimallib.py:Decimal._compare_check_nans"]}
{"id": "C90", "title": "compare_total is a total order, and max and min follow it", "statement": "compare_total is a strict total order on all representations, NaNs included: it answers 0 only for identical operands and it refines the numerical order; max and min of non-NaN operands deliver the last and the first of the two in this order; a single quiet NaN is ignored, other NaNs are passed on.", "quantifier": "every pair and triple of decimals, every context", "why_tests_cant": "transitivity and totality range over triples of unbounded values", "anchors": ["crosshair/libimpl/decimallib.py:Decimal.compare_total", "crosshair/libimpl/decimallib.py:Decimal.max", "crosshair/libimpl/decimallib.py:Decimal.min"]}
{"id": "C91", "title": "quantize rounds exactly, or refuses", "statement": "x.quantize(y, rounding) is x rounded by that mode to a multiple of ten to the exponent of y, with the sign of x and that exponent, when that number fits the precision and exponent range; otherwise it signals InvalidOperation. Inexact, Rounded, Subnormal and Clamped are signaled exactly when they apply. round(x, k) is the case of k places.", "quantifier": "every finite decimal, exponent, mode and context; NaN and infinite operands", "why_tests_cant": "the refusal must agree with the rounded result, which can gain a digit", "anchors": ["crosshair/libimpl/decimallib.py:Decimal.quantize", "crosshair/libimpl/decimallib.py:Decimal._rescale", "crosshair/libimpl/decimallib.py:Decimal.__round__"]}
{"id": "C92", "title": "Decimals convert to integers exactly", "statement": "int(x) truncates, round(x) rounds half to even, math.floor and math.ceil round down and up, exactly for every finite decimal; to_integral_value/exact give the same integers as decimals for every mode, with Inexact and Rounded exactly when digits were lost; normalize gives the rounded value without trailing zeros.", "quantifier": "every finite decimal, every mode and context; NaN and infinite operands", "why_tests_cant": "digit strings shorter than the number of dropped digits, carries and negative numbers for every length", "anchors": ["crosshair/libimpl/decimallib.py:Decimal.__int__", "crosshair/libimpl/decimallib.py:Decimal.__round__", "crosshair/libimpl/decimallib.py:Decimal.__floor__", "crosshair/libimpl/decimallib.py:Decimal.__ceil__", "crosshair/libimpl/decimallib.py:Decimal.to_integral_exact", "crosshair/libimpl/decimallib.py:Decimal.normalize"]}
{"id": "C93", "title": "next_plus and next_minus give the neighbouring numbers", "statement": "x.next_plus() is the smallest number the context can hold that is strictly greater than x (Infinity if there is none), next_minus the largest one strictly smaller; neither signals anything.", "quantifier": "every decimal and every context", "why_tests_cant": "neighbours change at powers of ten, at the subnormal boundary and at the largest number, for every precision", "anchors": ["crosshair/libimpl/decimallib.py:Decimal.next_plus", "crosshair/libimpl/decimallib.py:Decimal.next_minus", "crosshair/libimpl/decimallib.py:Context._ignore_all_flags"]}
{"id": "C94", "title": "Decimal square roots are correctly rounded", "statement": "x.sqrt() is the exact square root rounded once, half to even, into the context, with Inexact exactly when the root is not representable; an exact root is delivered with half the exponent; negative numbers signal InvalidOperation, zeros keep their sign.", "quantifier": "every decimal and every context", "why_tests_cant": "roots are irrational in general; correctness of the last digit depends on an integer Newton iteration and a sticky digit", "anchors": ["crosshair/libimpl/decimallib.py:Decimal.sqrt"]}
{"id": "C95", "title": "watch notices exactly the changes to the watched files", "statement": "`crosshair watch` analyses the files named on the command line and every importable .py file below the named directories, and restarts the analysis exactly when one of these files is added, removed or modified.", "quantifier": "all directory trees, all lists of targets, all histories of the file system between checks", "why_tests_cant": "tests watch one directory with one file; overlapping targets, deletions and histories of arbitrary trees are not enumerable", "anchors": ["crosshair/fnutil.py:analyzable_filename", "crosshair/fnutil.py:walk_paths", "crosshair/watcher.py:Watcher.check_changed", "crosshair/watcher.py:mtime"]}
{"id": "C96", "title": "The worker pool loses, invents and duplicates nothing", "statement": "Under every interleaving of the main thread and the workers: at most the allowed number of workers run at once; results are passed on in order of arrival, none lost, made up or repeated; a pass that ends has analysed every submitted file and has reported every result; and unless the pass is abandoned, a worker is stopped only once its deadline has passed.", "quantifier": "all schedules of the main thread, the worker threads and the clock, all numbers of files and passes, all worker failures", "why_tests_cant": "the interleavings that matter last microseconds and cannot be produced on demand by a test", "anchors": ["crosshair/watcher.py:Pool", "crosshair/watcher.py:PoolWorkerShell.run", "crosshair/watcher.py:Watcher.run_iteration"]}
{"id": "C97", "title": "A watch pass never gets stuck", "statement": "On every machine, from every state that a pass can be in, the pass can still be completed without any file having to change.", "quantifier": "all pool sizes, all reachable states of a pass", "why_tests_cant": "deadlocks show only under particular schedules and machine sizes", "anchors": ["crosshair/watcher.py:Watcher.startpool", "crosshair/watcher.py:Pool._spawn_workers", "crosshair/watcher.py:Pool._prune_workers", "crosshair/watcher.py:Watcher.run_iteration"]}
{"id": "C98", "title": "watch analyses the most recently edited files first", "statement": "Each pass takes up the watched files in order of their modification time, the most recently edited first.", "quantifier": "all sets of files and modification times, all schedules", "why_tests_cant": "which worker starts first is not observable from results", "anchors": ["crosshair/watcher.py:Watcher.run_iteration", "crosshair/watcher.py:Pool.submit", "crosshair/watcher.py:Pool._spawn_workers"]}
{"id": "C99", "title": "An abandoned pass leaves no worker behind", "statement": "When a pass is abandoned because a file changed or the watch was stopped, every worker has ended before the next one starts.", "quantifier": "all schedules, all states of the workers at the moment of the change", "why_tests_cant": "depends on the instant at which the change is noticed relative to process creation", "anchors": ["crosshair/watcher.py:Pool.terminate", "crosshair/watcher.py:Pool._prune_workers", "crosshair/watcher.py:Watcher.handle_periodic"]}
{"id": "C100", "title": "Exit status and output of check", "statement": "`crosshair check` exits with 1 exactly when it found a counterexample, with 2 when something else went wrong and with 0 otherwise, and prints one error line per problem found.", "quantifier": "all targets, all module contents and import failures, all lists of analysis messages, both verbosity settings", "why_tests_cant": "the status must be right for every combination of loading outcome and messages; scripts rely on it unattended", "anchors": ["crosshair/main.py:check", "crosshair/main.py:checked_load", "crosshair/main.py:short_describe_message", "crosshair/fnutil.py:load_by_qualname", "crosshair/fnutil.py:walk_qualname", "crosshair/fnutil.py:load_files_or_qualnames"]}
{"id": "C101", "title": "What watch displays", "statement": "After every pass the display of `crosshair watch` shows, of the problems reported since the files last changed, the first one at each source line, and nothing else.", "quantifier": "all sequences of passes, messages and file changes, both kinds of terminals", "why_tests_cant": "stale messages depend on the whole history of passes and changes", "anchors": ["crosshair/main.py:run_watch_loop", "crosshair/main.py:messages_merged"]}
{"id": "C102", "title": "Asserts as contracts", "statement": "With assert-based contracts, the analyzed functions are exactly those that start with asserts; inputs that fail a leading assert are never reported, and any other call that raises an undeclared exception is reported, at the line where the function raised it.", "quantifier": "all functions (as sequences of statements with arbitrary effects), all inputs, all tracebacks", "why_tests_cant": "which assert failed is decided from line numbers in tracebacks, and layouts, wrappers and recursion are unbounded", "anchors": ["crosshair/condition_parser.py:AssertsParser", "crosshair/util.py:frame_summary_for_fn", "crosshair/core.py:attempt_call"]}
{"id": "C103", "title": "Unsatisfiable leading asserts", "statement": "A function whose leading asserts no input satisfies is not presented as confirmed: as with other kinds of contracts, the precondition is said to be unmet.", "quantifier": "all functions and inputs", "why_tests_cant": "a statement about every input of the function", "anchors": ["crosshair/condition_parser.py:AssertsParser.get_fn_conditions"]}
{"id": "C104", "title": "Deal contracts see the arguments of the call", "statement": "A deal precondition or postcondition is evaluated on exactly the arguments the analyzed call passes (and its result).", "quantifier": "all signatures, argument values and validators", "why_tests_cant": "signatures mix parameter kinds without bound", "anchors": ["crosshair/condition_parser.py:DealParser._extract_a_and_kw", "crosshair/condition_parser.py:DealParser._make_pre_expr", "crosshair/condition_parser.py:DealParser._make_ensure_expr"]}
{"id": "C105", "title": "Every deal contract is used", "statement": "A function with deal contracts is analyzed with all its preconditions, postconditions and declared exceptions, in order, unless it is declared to have side effects; with preconditions alone it is still analyzed.", "quantifier": "all lists of contracts", "why_tests_cant": "combinations of decorators are unbounded", "anchors": ["crosshair/condition_parser.py:DealParser.get_fn_conditions"]}
{"id": "C106", "title": "A symbolic dictionary is some Python dictionary", "statement": "Whatever a program does with a symbolic dictionary (look up keys, ask for its length or truth, compare it, run any number of interleaved iterators), every path that is explored to its end gives it the answers of one Python dictionary, with one order of its items; and every Python dictionary, in every order, is such a path's input.", "quantifier": "every sequence of operations, every assignment of the solver's array, length and iteration keys, every key sort, finite or infinite", "why_tests_cant": "the array and the length are independent solver variables that only the operations and a deferred check reconcile; a mismatch shows for particular assignments and interleavings only", "anchors": ["crosshair/libimpl/builtinslib.py: SymbolicDict.__iter__, __getitem__, __eq__, __init__ (dict_can_be_iterated)", "crosshair/libimpl/builtinslib.py: SymbolicDictOrSet"]}
{"id": "C107", "title": "A symbolic frozenset is some Python frozenset", "statement": "The same for symbolic frozensets: membership tests, length, truth, comparison and interleaved iterations agree with one Python set in one order, on every path explored to its end; and every set, in every order, can be the input.", "quantifier": "every sequence of operations, every assignment of the solver's array, length and keys, every key sort, finite or infinite", "why_tests_cant": "iteration reuses keys found by earlier iterations before it looks at the length; only particular interleavings and assignments would expose a mismatch", "anchors": ["crosshair/libimpl/builtinslib.py: SymbolicFrozenSet.__iter__, __contains__, __eq__, _is_consistent"]}
{"id": "C108", "title": "Equality of symbolic dictionaries and sets is equality of their contents", "statement": "Comparing two symbolic dictionaries (or frozensets) of the same type, and matching a symbolic one with a concrete one when two inputs are unified, holds exactly when the two have the same keys with the same values, whatever their orders.", "quantifier": "every pair of dictionaries or sets, symbolic or concrete, over every key sort", "why_tests_cant": "the comparison is a formula on solver arrays, which must be right for all their values and orders", "anchors": ["crosshair/libimpl/builtinslib.py: SymbolicDict.__eq__, SymbolicDict._smt_for_unification", "crosshair/libimpl/builtinslib.py: SymbolicFrozenSet.__eq__, SymbolicFrozenSet._smt_for_unification"]}
{"id": "C109", "title": "Printed inputs read back as the same values", "statement": "The texts CrossHair prints for counterexample or covering inputs evaluate, in Python, to values with the same structure and the same aliasing as the values they describe (shared objects are introduced once with := and referred to by name afterwards).", "quantifier": "all finite object graphs of lists, tuples, sets, dictionaries and instances, with any sharing and any number of values printed together", "why_tests_cant": "sharing patterns and nesting are unbounded; the naming scheme, the removal of unneeded names and the grammar interact", "anchors": ["crosshair/util.py:EvalFriendlyReprContext", "crosshair/util.py:EvalFriendlyReprContext.cleanup", "crosshair/core.py:LazyCreationRepr.eval_friendly_format"]}
{"id": "C110", "title": "The printed call passes the described arguments", "statement": "The argument list printed for a call (\"when calling f(...)\") is a legal Python argument list and, when the call is made, binds each parameter of the signature to the value it was printed for.", "quantifier": "all signatures (positional-only, ordinary, *args, keyword-only and **kwargs parameters, with and without defaults) and all bound arguments", "why_tests_cant": "signatures combine five parameter kinds, defaults and arbitrarily many extra arguments", "anchors": ["crosshair/util.py:format_boundargs", "crosshair/condition_parser.py:default_counterexample"]}
{"id": "C111", "title": "Simulated clocks behave like real ones", "statement": "While a path is explored, monotonic() and process_time() (and their _ns variants) never go back, sleep(n) takes at least n seconds of the monotonic clock, and every history that real clocks could produce is among those explored.", "quantifier": "all histories of clock calls and sleeps on a path", "why_tests_cant": "histories are unbounded and readings are arbitrary numbers", "anchors": ["crosshair/libimpl/timelib.py:_gte_last", "crosshair/libimpl/timelib.py:_sleep", "crosshair/libimpl/timelib.py:make_registrations"]}
{"id": "C112", "title": "Integer arrays hold what array.array holds", "statement": "Symbolic array.array values of integer type codes range over exactly the arrays that exist, and item assignment, insertion, appending, deletion, slicing and extension have the results, errors and effects of the real type, including OverflowError for values that do not fit.", "quantifier": "all integer type codes, arrays and histories of operations", "why_tests_cant": "values range over up to 64 bits and histories are unbounded", "anchors": ["crosshair/libimpl/arraylib.py:INT_TYPE_BOUNDS", "crosshair/libimpl/arraylib.py:pick_code", "crosshair/libimpl/arraylib.py:make_array", "crosshair/libimpl/arraylib.py:_array", "crosshair/libimpl/arraylib.py:SymbolicArray"]}
{"id": "C113", "title": "Layers of function replacements behave like a stack", "statement": "Whatever replacements of functions are installed and removed in stack order, no installation or removal fails, a call from ordinary code goes to the latest replacement, a call from within a replacement goes to the one below it, and after removal every call goes where it went before.", "quantifier": "all histories of installing and removing replacements, all callers and functions", "why_tests_cant": "the histories and the nesting of layers are unbounded", "anchors": ["crosshair/tracers.py:PatchingModule", "crosshair/tracers.py:PatchingModule.add", "crosshair/tracers.py:PatchingModule.pop", "crosshair/tracers.py:PatchingModule.trace_call"]}
{"id": "C114", "title": "F-strings have the text Python gives them", "statement": "While code is being analysed, an f-string with any literal parts, values, conversions (!s, !r, !a) and formats evaluates to the text, or fails with the error, that it has in ordinary execution.", "quantifier": "all f-strings, values, conversions and formats", "why_tests_cant": "every combination of conversion, format and symbolic or ordinary value matters", "anchors": ["crosshair/opcode_intercept.py:FormatStashingValue", "crosshair/opcode_intercept.py:BuildStringInterceptor", "crosshair/opcode_intercept.py:FormatValueInterceptor"]}
{"id": "C115", "title": "Comprehensions and membership tests agree with Python", "statement": "While code is being analysed, dictionary and set comprehensions under any nesting of loops produce the entries Python produces, in the same order and with the same error for unhashable keys, and membership of symbolic values in ordinary sets and dictionaries has Python's answer.", "quantifier": "all sequences of keys and values, symbolic or not, and all nesting depths", "why_tests_cant": "keys turn from ordinary to symbolic at any point of an unbounded sequence", "anchors": ["crosshair/opcode_intercept.py:MapAddInterceptor", "crosshair/opcode_intercept.py:SetAddInterceptor", "crosshair/opcode_intercept.py:ContainmentInterceptor", "crosshair/simplestructs.py:SimpleDict.__setitem__", "crosshair/simplestructs.py:LinearSet"]}
{"id": "C116", "title": "The operators not and is agree with Python", "statement": "While code is being analysed, not gives the negation of the truth value Python would compute for the object, and is holds exactly when the operands stand for the same boolean, type or object.", "quantifier": "all objects with or without __bool__ and __len__, and all pairs of operands", "why_tests_cant": "every kind of symbolic object may be an operand", "anchors": ["crosshair/opcode_intercept.py:NotInterceptor", "crosshair/opcode_intercept.py:BoolStashingValue", "crosshair/opcode_intercept.py:IdentityInterceptor"]}
{"id": "C117", "title": "Argument types that fit a signature are subtypes of it", "statement": "If the types of arguments are found to fit the annotated types of parameters, each is a subtype of the annotation under the bindings found for type variables; and argument types that are subtypes are found to fit, without errors.", "quantifier": "all types built from classes, unions, tuples, callables, Any and type variables, and all class hierarchies", "why_tests_cant": "types nest without bound and bindings flow between parameters", "anchors": ["crosshair/dynamic_typing.py:unify", "crosshair/dynamic_typing.py:unify_callable_args", "crosshair/core.py:find_best_sig", "crosshair/core.py:consider_shortcircuit"]}
{"id": "C118", "title": "A call of an overloaded function is checked against the overload it fits", "statement": "When a function with several registered signatures is called, CrossHair takes the call to be for the first signature that accepts it by Python's rules for calls and whose annotations the arguments' types fit; if no signature fits, the function's body is not skipped, and the call does not fail because of a signature it is not for.", "quantifier": "all lists of signatures (kinds of parameters, defaults, annotations with classes, generics, unions and type variables), all positional and keyword arguments", "why_tests_cant": "There are unboundedly many combinations of overloads, argument counts, keywords and types; the tests check a few overloads with positional arguments.", "anchors": ["crosshair/core.py:find_best_sig", "crosshair/core.py:ShortCircuitingContext"]}
{"id": "C119", "title": "dict(...) builds the dictionary Python would", "statement": "On an explored path, dict(argument, **keywords) raises the exception CPython raises, or gives a dictionary with the same keys, values and key order, independent of later changes to the objects it was built from.", "quantifier": "all arguments (none, mappings, iterables of arbitrary items, others), all keyword arguments, all later changes of the items", "why_tests_cant": "Which keys coincide, where, and with which keywords is unbounded; the tests try a few short literals.", "anchors": ["crosshair/libimpl/builtinslib.py:_dict", "crosshair/simplestructs.py:SimpleDict", "crosshair/simplestructs.py:ShellMutableMap"]}
{"id": "C120", "title": "Every usable concrete subclass is tried for an argument", "statement": "For an argument annotated with a class, CrossHair tries, on some path, each concrete subclass in memory that it can see and copy, and never an abstract class or one that is not a subclass; the class itself is preferred and the others are equally likely. For an enumeration, every member and only members are tried.", "quantifier": "all class hierarchies (any number of bases, abstract classes, modules, own copying methods), all decisions on a path, all enumerations", "why_tests_cant": "Class hierarchies are unbounded and the choice depends on every decision; tests use one or two small hierarchies.", "anchors": ["crosshair/core.py:choose_type", "crosshair/core.py:iter_types", "crosshair/type_repo.py:get_subclass_map"]}
{"id": "C121", "title": "A skipped call returns what the function would have returned", "statement": "When CrossHair skips a call and returns a new symbolic value instead, then on every path that is not dropped that value is what the function returns for the arguments as they were when it was called, whatever the caller changes afterwards; calls are skipped only if the contract says that the function changes nothing.", "quantifier": "all values and object graphs as arguments and results, all changes made after the call, all functions of the arguments' contents", "why_tests_cant": "It depends on all later changes to shared objects and on the nesting of containers; the tests skip a few calls with unchanged atomic arguments.", "anchors": ["crosshair/core.py:shortcircuit", "crosshair/core.py:consider_shortcircuit", "crosshair/core.py:is_deeply_immutable"]}
{"id": "C122", "title": "Checking a module checks every contract in it", "statement": "Checking a module checks every function and class that it defines (and no imported one) unless it is switched off: each postcondition of a function or method is checked once, assuming all of its preconditions, and contracts whose text is not valid are reported instead, every problem of them; abstract methods and methods of abstract classes that need an instance are not checked, nor is whether __init__ establishes the invariants.", "quantifier": "all modules, classes, methods, combinations of contracts, invariants, options and directives", "why_tests_cant": "Tests check some classes; what is checked depends on descriptors, abstractness, options on three levels and on which other conditions a method has, in all combinations.", "anchors": ["crosshair/core.py:analyze_module", "crosshair/core.py:analyze_class", "crosshair/core.py:analyze_function", "crosshair/fnutil.py:get_top_level_classes_and_functions"]}
{"id": "C123", "title": "Messages are put where the problem is", "statement": "A message about a function is put on a line of that function: on the line where the problem is, if it is one of the function's lines, and otherwise on its first line together with the text of the line where the problem is; a message about a method of a class is put on a line of the class.", "quantifier": "all functions (decorated ones too), classes, files, suggested places and contents of files", "why_tests_cant": "Tests look at a few functions in one file; where a message goes depends on decorators, inherited methods, places that are not known and lines next to the function.", "anchors": ["crosshair/core.py:MessageGenerator", "crosshair/core.py:ClampedCheckable", "crosshair/util.py:sourcelines", "crosshair/util.py:samefile"]}
{"id": "C124", "title": "The patch printed with a counterexample repeats the path", "statement": "When calls of functions were skipped on the way to a counterexample, calling the function again under the printed crosshair.patch_to_return(...) does what it did on the path: each skipped function returns the same values in the same order, and never one that is not printed.", "quantifier": "all programs (any sequence of skipped calls, looks at and changes of the returned objects, also in the preconditions), all returned values", "why_tests_cant": "The values flow through arbitrary code between the calls and the moment they are printed; tests use one call that returns an integer.", "anchors": ["crosshair/core.py:FunctionInterps", "crosshair/core.py:patch_to_return", "crosshair/core.py:fn_returning", "crosshair/core.py:make_counterexample_message"]}
{"id": "C125", "title": "The function printed for a callable argument behaves as on the path", "statement": "An argument annotated as a callable returns, call by call, the values of one list on the path and then the last one; the expression printed for it in a counterexample, when evaluated and called in the same way, returns the same values; copies go on where the original was, and callables that compare equal give the same results.", "quantifier": "all non-empty lists of values, all sequences of calls with any arguments by position or name, all numbers of calls before a copy or comparison", "why_tests_cant": "Sequences of calls are unbounded and what is printed depends on each value; the only test matches the word lambda.", "anchors": ["crosshair/libimpl/builtinslib.py:SymbolicCallable"]}
{"id": "C126", "title": "Symbolic classes answer issubclass as a real class does", "statement": "When a class is not known (an argument annotated Type[C], or the class of an argument annotated object), the answers of issubclass and == on a path are those Python gives for the class that the path ends up reporting, which is a subclass of the annotation; and every class in memory that the annotation allows is reported by some path.", "quantifier": "all systems of classes (with any results of issubclass, registered subclasses and exceptions too), all programs that ask about the class, all interpretations of the solver", "why_tests_cant": "The solver may give a class that is not known any place among the known ones; tests ask one question about one class.", "anchors": ["crosshair/type_repo.py:SymbolicTypeRepository", "crosshair/libimpl/builtinslib.py:SymbolicType", "crosshair/libimpl/builtinslib.py:_issubclass"]}
{"id": "C127", "title": "The objects in a symbolic container are the same objects every time", "statement": "An element of a symbolic container that is an object is made when it is first looked up, and from then on the same element is the same object, with the changes made to it, and other elements are other objects: as if all had existed from the beginning. The view of the arguments before the call, and deep copies of a container, have objects of their own: changes made by the function do not show there.", "quantifier": "all programs that look up elements through any snapshot, read, change and compare them and take checkpoints, and all calls that use, copy and change the elements of their argument", "why_tests_cant": "Which elements are looked up first, and through which of several views, depends on the path; the tests look at one element of one list.", "anchors": ["crosshair/statespace.py:StateSpace.find_key_in_heap", "crosshair/statespace.py:StateSpace.add_value_to_heaps", "crosshair/statespace.py:StateSpace.checkpoint", "crosshair/libimpl/builtinslib.py:SymbolicValue.__deepcopy__", "crosshair/libimpl/builtinslib.py:smt_to_ch_value", "crosshair/core.py:attempt_call"]}
{"id": "C128", "title": "A frozenset keeps the elements it was made with", "statement": "frozenset(x) and set(x) have exactly the elements that x has when they are made; later changes of x, or of a set made from them, do not show in them.", "quantifier": "all histories of making sets and frozensets from sets, frozensets and other iterables, adding and discarding elements, and asking for members and sizes", "why_tests_cant": "The set must be changed after the frozenset was made and before it is looked at; which of the histories do that is not bounded.", "anchors": ["crosshair/libimpl/builtinslib.py:_frozenset", "crosshair/libimpl/builtinslib.py:_set", "crosshair/simplestructs.py:LinearSet", "crosshair/simplestructs.py:ShellMutableSet.__init__"]}
{"id": "C129", "title": "isinstance answers as outside the analysis", "statement": "While code is analysed, isinstance(x, T) has the result or exception that it has in Python, for classes, abstract base classes, protocols, classes with their own checks, and tuples of them.", "quantifier": "all class hierarchies, metaclass hooks, objects and nested tuples of classes", "why_tests_cant": "The answers depend on the class hierarchy of the program under analysis, which no list of examples covers.", "anchors": ["crosshair/libimpl/builtinslib.py:_isinstance", "crosshair/libimpl/builtinslib.py:_issubclass"]}
{"id": "C130", "title": "Functions that take functions work as outside the analysis", "statement": "map, filter, functools.reduce, the itertools functions that take a function, and functions with a cache give the results they give in Python, also when None is passed for the function.", "quantifier": "all lists of values, functions, and sequences of calls of a cached function", "why_tests_cant": "They hold for every function that is passed, and for every sequence of calls of a cached one.", "anchors": ["crosshair/libimpl/itertoolslib.py", "crosshair/libimpl/functoolslib.py", "crosshair/libimpl/builtinslib.py:_map", "crosshair/libimpl/builtinslib.py:_filter"]}
{"id": "C131", "title": "Texts of decimal numbers", "statement": "Decimal(text) accepts exactly the texts of the documented grammar (any case, white space around, underscores) and gives the number the grammar says; str(d) reads back as d with the same sign, digits and exponent; scientific and engineering notation place the point and the exponent as documented, and engineering notation keeps the value.", "quantifier": "All texts of any length; all finite numbers, infinities and NaNs with any sign, digits and exponent; both capitals settings.", "why_tests_cant": "Texts and coefficients are unbounded, and the cases of the point and the exponent depend on three unbounded numbers.", "anchors": ["crosshair/libimpl/decimallib.py Decimal.__new__", "crosshair/libimpl/decimallib.py Decimal.__str__", "crosshair/libimpl/decimallib.py Decimal.to_eng_string", "crosshair/libimpl/decimallib.py _parser"]}
{"id": "C132", "title": "Meaning of conditions in docstrings", "statement": "A precondition or postcondition means the Python expression its author wrote: its names are the parameters, then variables of the enclosing function, globals and built-ins, in a postcondition also the result and the old arguments; implies(x, y) is true without looking at y if x is false; a call of implies with other than two arguments is reported as a syntax error; conditions without implies are evaluated as written.", "quantifier": "All condition expressions (calls, keywords, and/or, conditionals, comprehensions, operators, any nesting), all functions with any parameters, closure variables, globals and built-ins, all behaviours of the called functions (effects and exceptions).", "why_tests_cant": "Expressions nest without bound and the names depend on every combination of parameters, closures, globals and built-ins.", "anchors": ["crosshair/condition_parser.py ImpliesTransformer", "crosshair/condition_parser.py compile_expr", "crosshair/condition_parser.py condition_from_source_text", "crosshair/fnutil.py fn_globals", "crosshair/core.py attempt_call"]}
{"id": "C133", "title": "The editor shows the worst current message of each line, and nothing in a document that is being edited", "statement": "With the language server, after each publication an editor shows for every open, saved document exactly one message per line that has one of at least warning rank: the worst reported since the document was last opened or saved or the analysis restarted; messages of problems that are gone disappear; and in a document that has been changed and not yet saved, or closed, nothing is shown.", "quantifier": "all histories of edits, saves, reports, publications and restarts; for the documents being edited all interleavings of the editor thread with the analysis thread", "why_tests_cant": "A test drives one order of the two threads; the claim is about the order of every notification and every step of the publishing loop.", "anchors": ["crosshair/lsp_server.py: publish_messages, LocalState.run_watch_loop, did_change, did_close, did_open, did_save, get_diagnostic"]}
{"id": "C134", "title": "The exceptions declared in a docstring are exactly those that are permitted", "statement": "The exception classes that a function may raise without a report are exactly those that its docstring names in lines ':raises NAME: ...' and 'raises: NAME, NAME', with the meaning the names have for the function.", "quantifier": "all docstrings, all names and their meanings", "why_tests_cant": "Docstrings are free text in any layout; a test has a few of them, and a declaration that is read wrongly shows only as a missing or an unwanted report.", "anchors": ["crosshair/condition_parser.py: parse_sphinx_raises, _RAISE_SPHINX_RE"]}
{"id": "C135", "title": "Arguments of unknown type act as the values they stand for", "statement": "When a parameter is annotated `object` (or not at all), the function may use it through any number of names, copy it, change it in place or compute with it, and sees what Python would show for the value the path gives it; the record of the argument made before the call keeps the original value.", "quantifier": "all sequences of assignments, deep copies, in-place operations, method calls and observations; all values (mutable or not); all moments at which the value gets made", "why_tests_cant": "A value is made lazily, at the first use on each path, and the effect of sharing shows only for particular orders of use.", "anchors": ["crosshair/objectproxy.py:proxy_inplace_op", "crosshair/objectproxy.py:ObjectProxy._wrapped", "crosshair/libimpl/builtinslib.py:SymbolicObject.__deepcopy__"]}
{"id": "C136", "title": "The registry of contracts for other libraries keeps what it accepted", "statement": "register_contract returns True exactly if the signatures and the parameters of the conditions agree with the function and with what was registered before; then get_contract gives the conditions, all registered signatures and the choice about the body from then on, and a refused registration changes nothing. Functions of registered modules get a contract that skips the body unless one was registered by hand, and the conditions of accepted contracts can be evaluated.", "quantifier": "all histories of registrations, module registrations and lookups; all functions, signatures, stubs and conditions", "why_tests_cant": "The outcome depends on the order of registrations and lookups, on lists shared between calls, and on combinations of required and optional parameters.", "anchors": ["crosshair/register_contract.py:register_contract", "crosshair/register_contract.py:get_contract", "crosshair/register_contract.py:_verify_signatures", "crosshair/condition_parser.py:RegisteredContractsParser"]}
{"id": "C137", "title": "The arguments made for a function reach its parameters", "statement": "For a function with any mixture of positional-only, ordinary, variable, keyword-only and keyword-collecting parameters, the generated arguments form a call that Python accepts, and each parameter gets exactly the value generated (and shown) for it; conditions see the same values as the function.", "quantifier": "all signatures, all generated values, all keys of keyword dictionaries", "why_tests_cant": "Tests use fixed signatures and the dictionaries of keywords that happen to be generated; a key that names another parameter is rare.", "anchors": ["crosshair/core.py:gen_args", "crosshair/core.py:attempt_call"]}
{"id": "C138", "title": "Only arguments declared as mutable may change", "statement": "With a postcondition `post[x, y]: ...` a message is given exactly if an argument other than x and y is different after the call; without the brackets nothing is reported.", "quantifier": "all arguments before and after the call, all lists of declared names", "why_tests_cant": "Values whose equality is peculiar (not-a-number, numbers equal to booleans) must be among the arguments.", "anchors": ["crosshair/core.py:attempt_call", "crosshair/libimpl/builtinslib.py:make_float"]}
{"id": "C139", "title": "Unions in the annotations of type stubs are read alike on all Python versions", "statement": "On Python before 3.10, every union written X | Y in a stub's annotation is read as Union[X, Y], at every depth of brackets, and the rest of the annotation is unchanged, so that the signature found is the one the stub states.", "quantifier": "all annotations with balanced brackets, any nesting of brackets, unions and comma-separated lists, any text between", "why_tests_cant": "Annotations nest without bound, and the rewriting keeps indices into a text that grows while it is scanned; only induction over the nesting covers all of them.", "anchors": ["crosshair/stubs_parser.py:_rewrite_with_union", "crosshair/stubs_parser.py:_parse_annotation"]}
{"id": "C140", "title": "All signatures of a function in a stub are found", "statement": "The signatures found for a function in a type stub are those of all its definitions in the parts of the stub that are for this interpreter, in the order in which they stand there, and the result is reported as complete exactly if every one of them could be read.", "quantifier": "all stubs with classes, overloads and version or platform checks nested to any depth, all dotted names", "why_tests_cant": "Overloads may be spread over nested classes and version checks in unboundedly many ways, and the first fitting overload decides what a call is checked against.", "anchors": ["crosshair/stubs_parser.py:_sig_from_ast", "crosshair/stubs_parser.py:signature_from_stubs"]}
{"id": "C141", "title": "Each instruction is shown to the installed tracing modules that want it", "statement": "After any sequence of installing and removing tracing modules, an instruction is shown to exactly those installed modules that asked for its kind, in the order of installation, and the list of modules is the one of a stack; an installation that is refused changes nothing.", "quantifier": "all sequences of installations and removals, all sets of wanted instructions, all instructions", "why_tests_cant": "Modules are nested dynamically by the analysis of each function; only some nestings occur in tests.", "anchors": ["crosshair/_tracers.c:CTracer_push_module", "crosshair/_tracers.c:CTracer_pop_module", "crosshair/_tracers.c:CTracer_get_modules", "crosshair/_tracers.c:CTracer_handle_opcode"]}
{"id": "C142", "title": "Code is traced exactly if the innermost enclosing block says so", "statement": "However NoTracing and ResumedTracing blocks are nested, and however they are left, code runs traced exactly if the innermost block around it switches tracing on, and after each block tracing is as before it.", "quantifier": "all nestings of blocks, all ways to leave them", "why_tests_cant": "Blocks nest without bound, and exceptions may leave any number of them at any point.", "anchors": ["crosshair/_tracers.c:TraceSwap__enter__", "crosshair/_tracers.c:TraceSwap__exit__", "crosshair/tracers.py:NoTracing", "crosshair/tracers.py:ResumedTracing"]}
{"id": "C143", "title": "The result of an intercepted instruction is put in place exactly when the instruction has ended", "statement": "The action that completes an intercepted instruction (not, f-strings, set and dictionary comprehensions, truth tests) runs exactly once, just before the next instruction of its own function call, and only if the intercepted instruction ended normally.", "quantifier": "all executions: any calls nested in intercepted instructions, any exceptions", "why_tests_cant": "An intercepted instruction may call arbitrary code, with further intercepted instructions and exceptions at any depth.", "anchors": ["crosshair/_tracers.c:CTracer_push_postop_callback", "crosshair/_tracers.c:CTracer_handle_opcode", "crosshair/opcode_intercept.py:NotInterceptor", "crosshair/opcode_intercept.py:FormatValueInterceptor"]}
{"id": "C144", "title": "The operands of an instruction are found whatever code ran before", "statement": "The stack layout used to find the operands of an instruction is the one of the code that is running, whatever other code has been traced before; the memory for layouts is bounded, and the code that ran last is remembered.", "quantifier": "all sequences of code objects, all random numbers of the cache", "why_tests_cant": "The cache evicts and swaps at random once more than 64 code objects have run.", "anchors": ["crosshair/_tracers.c:_ch_get_stacks"]}
{"id": "C145", "title": "Intercepting calls does not change what is called", "statement": "While calls are intercepted for patching or for enforcing contracts, every call runs the code it would run without interception, with the same arguments, as long as each replacement does what the replaced function does; and a replaced function is replaced however it is referred to: by itself, as a method, through a class, or by calling an object.", "quantifier": "all callable objects: functions, classes, bound and built-in methods, methods reached by super(), instances with __call__; all replacements", "why_tests_cant": "The ways to refer to a function are many (bound, static, class, built-in, aliased), and any object may carry misleading attributes.", "anchors": ["crosshair/_tracers.c:crosshair_tracers_normalize_call_target_impl", "crosshair/_tracers.c:CTracer_call_trace_op_fast", "crosshair/tracers.py:TracingModule.trace_op"]}
{"id": "C146", "title": "The values shown are those the solver chose", "statement": "A float or a sequence in the solver's model is turned into exactly the Python value it stands for: zeros keep their sign, subnormal numbers, infinities and not-a-number are preserved, and sequences keep their elements in order.", "quantifier": "all 2^64 floats, all real numbers, all sequences", "why_tests_cant": "There are 2^64 floats with several notations, and infinitely many reals and sequences.", "anchors": ["crosshair/smtlib.py:parse_smtlib_literal", "crosshair/statespace.py:model_value_to_python"]}
{"id": "C147", "title": "len, hash, repr, sorted and setattr treat objects as CPython does", "statement": "For objects with user-defined special methods, len, hash, repr, sorted and setattr return the same values and raise the same exceptions as in CPython, whatever the special methods return and whatever attributes the object has.", "quantifier": "all results of special methods, all attributes of objects", "why_tests_cant": "Special methods may return anything: negative or huge numbers, values of other types.", "anchors": ["crosshair/libimpl/builtinslib.py:_len", "crosshair/libimpl/builtinslib.py:_hash", "crosshair/libimpl/builtinslib.py:_repr", "crosshair/libimpl/builtinslib.py:_sorted", "crosshair/libimpl/builtinslib.py:_setattr"]}
{"id": "C148", "title": "Built-in functions can be called under analysis in all the ways CPython allows", "statement": "Every call of a patched built-in function, class or method that CPython accepts, by the number of its positional arguments and its keywords, is accepted during the analysis, and every call that CPython refuses is refused.", "quantifier": "42 built-in functions, all numbers of positional arguments, all sets of keywords", "why_tests_cant": "Each function has many combinations of positional and keyword arguments; tests use the common ones.", "anchors": ["crosshair/libimpl/builtinslib.py:_str", "crosshair/libimpl/builtinslib.py:_bytes", "crosshair/libimpl/builtinslib.py:_dict", "crosshair/libimpl/builtinslib.py:_sorted", "crosshair/libimpl/builtinslib.py:make_registrations"]}
{"id": "C149", "title": "Rounding a float modelled as a real matches Python's definitions", "statement": "int, math.trunc, math.floor, math.ceil, round (with and without digits), is_integer and as_integer_ratio on a symbolic float that is modelled as a real number give the value Python defines, in exact arithmetic.", "quantifier": "every rational number; every number of digits, negative ones too", "why_tests_cant": "Unbounded numbers; ties and signs.", "anchors": ["crosshair/libimpl/builtinslib.py: RealBasedSymbolicFloat"]}
{"id": "C150", "title": "Division and non-finite operands of floats modelled as reals match CPython", "statement": "divmod, // and % of floats modelled as reals give CPython's quotient and remainder (up to the sign of zero) for numbers, infinities and not-a-number, and an operation of a number with an infinity or not-a-number gives CPython's result.", "quantifier": "every pair of rationals, infinities and not-a-number; every operator", "why_tests_cant": "Unbounded numbers; the solver may choose any solution of what it is told.", "anchors": ["crosshair/libimpl/builtinslib.py: _float_divmod, NonFiniteFloat.get_finite_comparable, setup_binops"]}
{"id": "C151", "title": "Rounding a float modelled as a double matches CPython", "statement": "int, round, math.floor, math.ceil, math.trunc, abs and is_integer on a symbolic float that is modelled as an IEEE double give CPython's result, of the same type, and fail alike.", "quantifier": "every double, infinity and not-a-number; every number of digits", "why_tests_cant": "2^64 doubles and rounding at every step.", "anchors": ["crosshair/libimpl/builtinslib.py: PreciseIeeeSymbolicFloat, SymbolicNumberAble.__abs__"]}
{"id": "C152", "title": "// and % of floats modelled as doubles match CPython", "statement": "The operators // and % on symbolic floats modelled as IEEE doubles give CPython's quotient and remainder.", "quantifier": "every pair of doubles, infinities and not-a-number", "why_tests_cant": "2^128 pairs and rounding at every step.", "anchors": ["crosshair/libimpl/builtinslib.py: PreciseIeeeSymbolicFloat.__floordiv__, apply_smt"]}
{"id": "C153", "title": "icontract contracts mean what icontract means by them", "statement": "Preconditions (groups of which one must hold), postconditions with result and OLD, snapshots and class invariants written with icontract hold or fail under CrossHair exactly when icontract's own checks pass or fail.", "quantifier": "every set of conditions, snapshots, arguments and program states", "why_tests_cant": "Any number of conditions and groups; conditions are arbitrary code.", "anchors": ["crosshair/condition_parser.py: IcontractParser", "crosshair/core.py: attempt_call", "crosshair/enforce.py: EnforcementWrapper"]}
{"id": "C154", "title": "Objects are constructed as Python does while contracts are enforced", "statement": "Calling a class while contracts are enforced runs the same code, in the same order, and gives the same object or exception as without CrossHair.", "quantifier": "every class (with its metaclass, __new__ and __init__) and arguments", "why_tests_cant": "Classes are arbitrary code.", "anchors": ["crosshair/enforce.py: manual_constructor"]}
{"id": "C155", "title": "A call is checked with the contract of the function that is called", "statement": "While contracts are enforced, each call of a function or method is checked with the contract that belongs to that function, and no other call is checked.", "quantifier": "every function, binding and class hierarchy", "why_tests_cant": "Arbitrary hierarchies.", "anchors": ["crosshair/enforce.py: EnforcedConditions.trace_call"]}
{"id": "C156", "title": "The coverage heuristic is safe and aims where it says", "statement": "Whatever paths were searched before, the default heuristic for choosing between two open branches does not fail, answers with a probability, keeps decisions that the engine has fixed and leaves all others open (strictly between 0 and 1). When it aims at a code location, that is one an earlier path passed (the least visited one for small random numbers), and each condition is biased by how it turned out before that location was first reached: 90% if only true, 10% if only false, 25% if both, unbiased if it was not asked.", "quantifier": "all sequences of paths, decisions and random numbers; all conditions, signs and locations", "why_tests_cant": "The heuristic keeps state over all paths; only some histories make two conditions share an identity, which depends on which objects the interpreter has freed.", "anchors": ["crosshair/pathing_oracle.py:CoveragePathingOracle", "crosshair/statespace.py:RandomizedBinaryPathNode.choose"]}
{"id": "C157", "title": "Composed search heuristics stay within their bounds", "statement": "Any composition of the coverage, breadth first, prefer-negative, constrained and rotating heuristics, after any use: no hook fails; answers are probabilities; a decision fixed by the engine stands unless a stated preference excludes one of the ways; over any n consecutive paths each of n rotated heuristics is in charge exactly once; if stated preferences can be met on the current path then the way taken keeps them satisfiable; breadth first takes the way not yet taken at a location.", "quantifier": "all compositions, histories, branches, probabilities and sets of preferences", "why_tests_cant": "Compositions and histories are unbounded, and the claims about preferences are about what the solver would find for every path.", "anchors": ["crosshair/pathing_oracle.py:ConstrainedOracle", "crosshair/pathing_oracle.py:RotatingOracle", "crosshair/pathing_oracle.py:BreadthFirstPathingOracle", "crosshair/pathing_oracle.py:PreferNegativeOracle"]}
{"id": "C158", "title": "Errors of the program are reported, and only those", "statement": "An exception that the checked program raises and its contract does not allow is reported as an error; one that arises only because a function of the interpreter does not accept a symbolic value is not blamed on the program. Allowed exceptions count as success whatever their message, failed postconditions of callees and abandoned attempts leave no trace.", "quantifier": "all exceptions: classes, messages, contracts", "why_tests_cant": "The decision is made on substrings of messages, which range over all texts that programs and the interpreter produce.", "anchors": ["crosshair/core.py:suspected_proxy_intolerance_exception", "crosshair/core.py:ExceptionFilter"]}
{"id": "C159", "title": "Temporary changes of process-wide state are undone", "statement": "CrossHair changes state of the whole process for a while: the import path while a file is loaded, the hooks of the import system while pure Python modules are preferred, sys.modules while the Python version of an accelerated module is loaded, and variables whose value is passed down the call stack. When the block ends, normally or with an exception, each is as it was before; and inside, a scoped variable reads as the innermost block around it says.", "quantifier": "all programs built of nested and sequential such blocks, exceptions, handlers and reads, and all starting states", "why_tests_cant": "whether the state is restored depends on where in a nest of blocks an exception arises; tests leave the blocks normally or check one of them alone", "anchors": ["crosshair/util.py:add_to_pypath", "crosshair/util.py:imported_alternative", "crosshair/util.py:DynamicScopeVar", "crosshair/pure_importer.py:prefer_pure_python_imports"]}
{"id": "C160", "title": "Verbose reports show the same problems, with their source", "statement": "`crosshair check --report_verbose` prints a report for exactly the messages the short form prints, and the exit status is the same. Each report has the traceback, an introduction saying which kind of result it is, the lines of the file at most three away from the reported one with only that one marked, and the message, whose counterexample can be copied and run.", "quantifier": "all lists of messages of any kind, all texts, all files and line numbers, both settings of report_all", "why_tests_cant": "reports depend on where in a file a problem is and on what its text contains; tests compare a few whole outputs", "anchors": ["crosshair/main.py:long_describe_message", "crosshair/main.py:short_describe_message", "crosshair/main.py:format_src_context", "crosshair/main.py:describe_message", "crosshair/main.py:check"]}
{"id": "C161", "title": "Status and output of search, diffbehavior and cover", "statement": "search exits with 0 and prints the last example found (or all), with 1 if none was found; diffbehavior exits with 1 and prints every difference, or with 0, saying that all paths were exhausted only if they were; cover exits with 0 and prints the examples of every function and method of its targets. All exit with 2 if they could not do their work, and cover prints what it has found before.", "quantifier": "all targets and outcomes of loading them, all results of the analyses, both kinds of output", "why_tests_cant": "scripts rely on the status for every combination of loading outcome and result", "anchors": ["crosshair/main.py:search", "crosshair/main.py:diffbehavior", "crosshair/main.py:cover", "crosshair/main.py:checked_fn_load", "crosshair/main.py:checked_load"]}
{"id": "C162", "title": "Default dictionaries behave as collections.defaultdict", "statement": "An argument annotated as a defaultdict behaves as one: only d[k] calls the factory, once for a key that is not there, and stores what it gives; membership, get, pop, setdefault and popitem do what they do for dicts.", "quantifier": "all histories of operations, all dictionaries, all factories, also ones that raise or give a new value each time", "why_tests_cant": "the state depends on the whole history of lookups; the methods inherited from the abstract mapping call d[k] where dict does not", "anchors": ["crosshair/libimpl/collectionslib.py:PureDefaultDict", "crosshair/libimpl/collectionslib.py:make_registrations"]}
{"id": "C163", "title": "Incremental encoders give what encoding at once gives", "statement": "An incremental encoder for ascii or latin-1 gives for every piece of a text its encoding, with characters that cannot be encoded passed to the error handler, and raises for the piece that has an error; stream writers write that.", "quantifier": "all texts, all ways of cutting them into pieces, all error handlers", "why_tests_cant": "errors may be at any set of positions in any piece", "anchors": ["crosshair/libimpl/encodings/_encutil.py:_getregentry", "crosshair/libimpl/encodings/ascii.py:AsciiStemEncoder", "crosshair/libimpl/encodings/latin_1.py:Latin1StemEncoder", "crosshair/libimpl/codecslib.py:_getincrementalencoder"]}
{"id": "C164", "title": "Case and character classes of symbolic strings are those of str", "statement": "The methods of symbolic strings that ask for or change the case of characters, that ask for classes of characters, and translate give what the same methods of str give.", "quantifier": "all strings of all lengths, all translation tables, over the Unicode character database", "why_tests_cant": "the outcome depends on every character and on what surrounds it; strings and tables are unbounded", "anchors": ["crosshair/libimpl/builtinslib.py:AnySymbolicStr.lower", "crosshair/libimpl/builtinslib.py:AnySymbolicStr.title", "crosshair/libimpl/builtinslib.py:AnySymbolicStr.swapcase", "crosshair/libimpl/builtinslib.py:AnySymbolicStr.istitle", "crosshair/libimpl/builtinslib.py:AnySymbolicStr.translate", "crosshair/unicode_categories.py:UnicodeMaskCache"]}
{"id": "C165", "title": "Texts of nested containers are those of Python", "statement": "While a function is analyzed, repr of lists, tuples, dictionaries, sets and frozensets nested in any way, also inside themselves, is what Python gives.", "quantifier": "all heaps of containers of any depth, with or without cycles", "why_tests_cant": "nesting is unbounded and may be cyclic", "anchors": ["crosshair/libimpl/builtinslib.py:_list_repr", "crosshair/libimpl/builtinslib.py:_dict_repr", "crosshair/libimpl/builtinslib.py:_set_repr", "crosshair/libimpl/builtinslib.py:_frozenset_repr", "crosshair/libimpl/builtinslib.py:_tuple_repr"]}
{"id": "C166", "title": "Parts of inputs are independent of each other", "statement": "Every combination of values that the parts of the arguments of a function may have (items of tuples, fields of dates and times, values of typed dictionaries, lengths and bytes) can be chosen by the solver: no two parts share a solver variable.", "quantifier": "all signatures, all nestings of types, all names of parameters and keys, all states of the counter of names", "why_tests_cant": "names are built by concatenation from arbitrary names; clashes need particular combinations", "anchors": ["crosshair/core.py:gen_args", "crosshair/core.py:proxy_for_class", "crosshair/libimpl/datetimelib.py:_symbolic_time_fields", "crosshair/libimpl/builtinslib.py:make_tuple", "crosshair/libimpl/builtinslib.py:SymbolicBoundedIntTuple", "crosshair/statespace.py:StateSpace.uniq"]}
{"id": "C167", "title": "Numeric values of characters", "statement": "unicodedata.decimal, digit and numeric of a symbolic string give what they give for the concrete string: the character's value, ValueError if it has none or the default if one is given, TypeError for strings that are not one character.", "quantifier": "all strings, all tables of values such as Unicode's, all ways the solver completes the functions it is told about", "why_tests_cant": "the value is chosen by the solver among all characters and passes through fractions and a float division", "anchors": ["crosshair/libimpl/unicodedatalib.py:_decimal", "crosshair/libimpl/unicodedatalib.py:_digit", "crosshair/libimpl/unicodedatalib.py:_numeric", "crosshair/unicode_categories.py:fractionmap", "crosshair/unicode_categories.py:_cached_int_transform"]}
{"id": "C168", "title": "Inputs of user classes are made and printed by constructor calls", "statement": "An input of a user class is what its constructor makes of inputs for its parameters; if a contract fails there the path is ignored, if the constructor raises it is unsupported. The call printed in a counterexample, evaluated, makes the same object again.", "quantifier": "all classes, all constructors as functions of their arguments with any effect on them, all nestings of objects", "why_tests_cant": "constructors are arbitrary programs and the text is made when the path is over", "anchors": ["crosshair/core.py:proxy_for_class", "crosshair/core.py:LazyCreationRepr", "crosshair/core.py:gen_args"]}
{"id": "C169", "title": "An enum input may be every value of the enum", "statement": "On the paths for a parameter whose type is an enum, the parameter takes every value of the enum and no other; a class without values makes the path ignored.", "quantifier": "all enum and flag classes, with aliases, all sequences of decisions", "why_tests_cant": "a confirmed condition claims all values were tried", "anchors": ["crosshair/core.py:proxy_for_type"]}
{"id": "C170", "title": "len, repr, str, format and hash call special methods as Python does", "statement": "In analyzed code len, repr, str, format and hash of an object of a user class look the method up in the object's classes, bind it, and check and convert its result as Python does.", "quantifier": "all class hierarchies, all methods and all results", "why_tests_cant": "the methods are arbitrary programs and may be of any kind", "anchors": ["crosshair/libimpl/builtinslib.py:invoke_dunder", "crosshair/libimpl/builtinslib.py:_len", "crosshair/libimpl/builtinslib.py:_hash", "crosshair/libimpl/builtinslib.py:_repr", "crosshair/libimpl/builtinslib.py:_format", "crosshair/libimpl/builtinslib.py:_str"]}
{"id": "C171", "title": "Attributes by symbolic names", "statement": "getattr, hasattr and setattr with a symbolic name act on the attribute of that name; the forks made for getattr and hasattr tell the object's attributes from each other and from other names.", "quantifier": "all objects, all names", "why_tests_cant": "the name is any string the solver may choose", "anchors": ["crosshair/libimpl/builtinslib.py:_getattr", "crosshair/libimpl/builtinslib.py:_hasattr", "crosshair/libimpl/builtinslib.py:_setattr", "crosshair/libimpl/builtinslib.py:fork_on_useful_attr_names"]}
{"id": "C172", "title": "Bytes and bytearrays own their contents", "statement": "While a function is analysed, a bytes object or bytearray made from another object (a list, bytes, a bytearray or a memoryview) keeps the contents it had when it was made, whatever is done to the other object later; only memoryviews show later changes.", "quantifier": "all programs that make lists, bytes, bytearrays and memoryviews from each other and change them, in any order", "why_tests_cant": "Sharing shows only in histories in which one object is made from another and the first is changed later; tests make an object and look at it at once.", "anchors": ["crosshair/libimpl/builtinslib.py:buffer_to_byte_seq", "crosshair/libimpl/builtinslib.py:_bytearray", "crosshair/libimpl/builtinslib.py:_bytes", "crosshair/libimpl/builtinslib.py:SymbolicMemoryView", "crosshair/simplestructs.py:SliceView"]}
{"id": "C173", "title": "Arguments of built-in types range over the values of their type", "statement": "For arguments annotated with int, bool, float, range, tuples, unions and dictionaries with keys such as tuples, every value of the type can be met on some path, and only values of the type are met; dictionaries with two equal keys are not.", "quantifier": "all types built from these, all values of them and all choices of the solver and the search tree", "why_tests_cant": "A value that is never tried, or one that does not exist in Python, shows only if a test happens to need it; types nest without bound.", "anchors": ["crosshair/libimpl/builtinslib.py:make_union_choice", "crosshair/libimpl/builtinslib.py:make_dictionary", "crosshair/libimpl/builtinslib.py:make_float", "crosshair/libimpl/builtinslib.py:make_tuple", "crosshair/libimpl/builtinslib.py:make_range", "crosshair/libimpl/builtinslib.py:ModelingDirector"]}
{"id": "C174", "title": "Naming a line of a function checks that function", "statement": "When a file and a line are given on the command line, the function or method that has the line is checked; if no function has it, that is reported.", "quantifier": "all modules of functions and nested classes, and all lines", "why_tests_cant": "Which member is found depends on the order of the names, on inheritance and on what stands on the next line; tests use a few files.", "anchors": ["crosshair/fnutil.py:load_function_at_line", "crosshair/fnutil.py:_contains_line", "crosshair/fnutil.py:load_files_or_qualnames"]}
{"id": "C175", "title": "Checking a file checks the module in that file", "statement": "When files are named on the command line, each is loaded as the module that it is in its packages, so that what is checked is the contents of that file, whatever other files were loaded before.", "quantifier": "all sets of files and packages, all sequences of files and all modules loaded before", "why_tests_cant": "What is loaded depends on the files named before, on directories above and on modules already loaded; tests load single files in fresh directories.", "anchors": ["crosshair/util.py:load_file", "crosshair/util.py:extract_module_from_file", "crosshair/util.py:import_module", "crosshair/fnutil.py:load_files_or_qualnames"]}
{"id": "C176", "title": "Methods of built-in types may be called through the type", "statement": "Calling a method through its class, as in map(str.upper, l) or int.bit_length(x), or calling a method of an ordinary string or range with symbolic arguments, does what Python does: the object may be of the class or a subclass, and no argument is refused because it is symbolic.", "quantifier": "all classes and subclasses, all objects, symbolic or not, and all arguments, tuples of symbolic values included", "why_tests_cant": "Which way a call goes depends on the object, its exact class and the form of every argument; tests call a few methods on a few values.", "anchors": ["crosshair/core.py:with_checked_self", "crosshair/core.py:with_symbolic_self", "crosshair/core.py:with_realized_args", "crosshair/core.py:realize"]}
{"id": "C177", "title": "Where directives hold", "statement": "A comment of the form '# crosshair: ...' gives the options it spells, whatever white space surrounds its parts, and no other comment does. The options of a function come from the directives in its body, at the top level of its module, and in the __init__.py files of the packages around it, inner ones taking precedence, and from no other place.", "quantifier": "every comment text, every nesting of packages, every module and function", "why_tests_cant": "Texts, package depths and the places of comments are unbounded; tests use a few files.", "anchors": ["crosshair/codeconfig.py:get_directives", "crosshair/codeconfig.py:collect_options"]}
{"id": "C178", "title": "Names in generated tests", "statement": "In the test file that `crosshair cover --example_output_format=pytest` writes, every name of a function, class, enumeration member or exception stands for the object it was printed for, given the import statements the file begins with.", "quantifier": "every set of functions, references and exceptions, every order of the import statements", "why_tests_cant": "Which names meet in one file depends on the program and on the paths found.", "anchors": ["crosshair/path_cover.py:import_statements_for_references", "crosshair/path_cover.py:output_pytest_paths", "crosshair/main.py:cover", "crosshair/util.py:callable_identifier"]}
{"id": "C179", "title": "Logical operations of decimals", "statement": "logical_and, logical_or, logical_xor and logical_invert of decimals act digit by digit on as many digits as the precision, give a result without leading zeros, and are invalid operations exactly for operands that are negative, not finite, have an exponent or other digits than 0 and 1.", "quantifier": "every precision and all operands of any length", "why_tests_cant": "Operands longer and shorter than the precision and each other, of any length.", "anchors": ["crosshair/libimpl/decimallib.py:logical_and", "crosshair/libimpl/decimallib.py:logical_or", "crosshair/libimpl/decimallib.py:logical_xor", "crosshair/libimpl/decimallib.py:logical_invert"]}
{"id": "C180", "title": "Thousands separators in formatted decimals", "statement": "Formatting a decimal with a thousands separator gives the digits in groups of the lengths that the locale asks for, counted from the right, never starting with a separator; it is padded with zeros to at least the width asked for and with no zero that could be left out.", "quantifier": "every grouping a locale can have, every separator, all digit strings and widths", "why_tests_cant": "Digit strings, widths and groupings are unbounded.", "anchors": ["crosshair/libimpl/decimallib.py:_insert_thousands_sep", "crosshair/libimpl/decimallib.py:_group_lengths"]}
{"id": "C181", "title": "Layout of formatted decimals", "statement": "A decimal formatted with a format specification shows its sign, its grouped digits, its fraction, its exponent and a per cent sign in that order, is filled with the fill character on the side asked for (centred: with at most one more on the right) and is at least as wide as asked; with zero padding nothing else is filled in, without it no zeros are added.", "quantifier": "every format specification, all digits, fractions and exponents", "why_tests_cant": "Widths, digit strings and combinations of options are unbounded.", "anchors": ["crosshair/libimpl/decimallib.py:_format_number", "crosshair/libimpl/decimallib.py:_format_align", "crosshair/libimpl/decimallib.py:_format_sign"]}
{"id": "C182", "title": "strftime of dates and times", "statement": "strftime of symbolic dates and times writes %f as the microsecond with six digits, %z as the UTC offset in the form +HHMM[SS[.ffffff]], %Z as the name of the time zone, even one with per cent signs in it, both empty for naive objects, and leaves everything else to the C library.", "quantifier": "every format text, every microsecond, offset and zone name", "why_tests_cant": "Format texts and zone names are unbounded.", "anchors": ["crosshair/libimpl/datetimelib.py:_wrap_strftime"]}
{"id": "C183", "title": "Decimals made of floats", "statement": "Decimal.from_float of a finite float is exactly the float's value, with its sign (also for zero) and the largest exponent for which that is possible; integers, infinities and NaN are kept.", "quantifier": "all floats and integers", "why_tests_cant": "Exactness concerns every mantissa and exponent.", "anchors": ["crosshair/libimpl/decimallib.py:Decimal.from_float"]}
{"id": "C184", "title": "Rotating and shifting decimals", "statement": "rotate and shift of a decimal move each of the last prec digits of its coefficient by the given number of places, around the end or with zeros coming in, and keep sign and exponent; a number of places that is not an integer within the precision is refused, infinities are kept.", "quantifier": "all coefficients, precisions and numbers of places in either direction", "why_tests_cant": "Digits are padded, cut and sliced with negative indices; correctness concerns all lengths.", "anchors": ["crosshair/libimpl/decimallib.py:Decimal.rotate", "crosshair/libimpl/decimallib.py:Decimal.shift"]}
