# Formal model of CrossHair in Rocq (Coq 8.16.1)

## What is modelled, and how

CrossHair runs a Python function on *symbolic* values. Each time the program
needs a concrete decision, the engine asks an SMT solver and records the decision
in a search tree. The model has two halves.

1. **The engine** (`SearchTree_*`, `Verdict_*`, `StatusCap_*`, `Explore_*`). Programs are arbitrary
   deterministic decision procedures `history -> action`. The solver, the random
   choices, the pathing heuristics and every timeout are adversarial parameters.
   The solver is assumed truthful (a `sat`/`unsat` answer is right; it may answer
   `unknown` at any time). Theorems say what the reported status means for *every
   assignment* of the symbolic inputs.
2. **The symbolic values** (integers, strings, sequences, maps, sets, codecs...).
   These are modelled *path-wise*: under a fixed assignment every `smt_fork(e)` is
   the truth value of `e` (half 1 is what justifies this), so each symbolic
   operation becomes a total function on concrete values. Z3's integer `/` and `%`
   are Euclidean. Each operation is compared with a small separately written
   specification of CPython (`*_Spec.v`).

Exceptions are values (`Err` constructors). Loops that are not structurally
recursive take fuel and return an error value if it runs out; a lemma shows the
fuel used is enough.

File layout per area `X`: `X_Model.v` (definitions, each citing file and lines in
/repo), `X_Spec.v` (independent specification), `X_Proofs.v`, `Properties_X.v`
(theorems closed by `exact`, `Print Assumptions`, and an `Example` showing that the
hypotheses are met).

If the code violates the property, a theorem named `..._refuted` exhibits a
witness, and a `..._partial` theorem proves the property on the largest domain I
could find; DESIGN.md and the MANIFEST note record the finding.

## Trusted base

* Coq 8.16.1's kernel (and `vm_compute`).
* `Print Assumptions` of every property theorem is printed in the build log:
  "Closed under the global context" for every one of them, i.e. no axioms, neither
  of the standard library nor of this development. (Checking the whole library with
  `coqchk -o` lists the `Coq.ssr.ssrunder.Under_rel` entries of Coq's own ssreflect
  files, which no theorem depends on.)
* The reading of /repo by hand; nothing is extracted or executed.
* The hypotheses of the theorems, in particular that solver answers are truthful
  (`truthful` in SearchTree_Spec) and, where a section quantifies over library
  functions (`Variable`s inside sections), what is said about them there.
* CPython reference behaviour: written from the language reference and checked
  by hand against CPython 3.11 for the sample points quoted in the examples.

## Results per property

Modelled code is given by the anchors in properties.jsonl; the exact lines are in the comments of each `X_Model.v`.

| Id | Property | Status | Theorems in | Remarks (what is missing, what the code gets wrong) |
|----|----|----|----|----|
| C01 | "Confirmed over all paths" is sound | proved | `Properties_SearchTree` | For any program, inputs, schedule, timeouts and solver that never lies. The _par version covers parallel forks, where an input has at least one run with a good outcome. |
| C02 | A reported counterexample is real | proved | `Properties_SearchTree` | REFUTED implies an input whose own run ends refuted. |
| C03 | The search makes progress and terminates on finite programs | proved | `Properties_SearchTree` | 2^d iterations suffice for programs of decision depth d without realization; finished parts of the tree never change. |
| C04 | An unfinished path is never counted as confirmed | proved | `Properties_SearchTree` |  |
| C05 | Decisions on a path are consistent | proved | `Properties_SearchTree` |  |
| C06 | Realizing a symbolic yields one consistent value | proved | `Properties_SearchTree` |  |
| C07 | A weighted fan-out picks an option that holds | partial | `Properties_Fanout` | The first option that holds is returned, with probability proportional to its weight; the sentinel exactly if none holds. 'Every possible option can be selected' is refuted for options implied by earlier ones and proved otherwise. |
| C08 | A path marked as approximate cannot lead to a confirmation | partial | `Properties_StatusCap` | Results are modelled as shared heap objects. The cap survives only if the last explored path set it; an earlier capped path is forgotten, and a path without decisions is never capped (both refuted by concrete histories). Without caps the sharing is proved harmless, which justifies the value-based search-tree model. |
| C09 | The verdict shown to the user matches the search result | partial | `Properties_Verdict` | attempt_call, the loop and the final verdict composed with the search-tree engine, for every program, schedule and truthful solver. Refuted parts: 'Unable to meet precondition' is also shown when the precondition held but the body was cut short; 'Confirmed' is shown when a precondition raised a declared exception; max_iterations=0 crashes. |
| C10 | Message collection keeps the most severe message per position | proved | `Properties_Messages` | File names are represented by their rank in string order; the unrepresentable-value marker test is a parameter. |
| C100 | Exit status and output of check | partial | `Properties_Cli` | A misspelt attribute of an existing module raises NotFound, which nothing catches: the process exits with 1, the status for counterexamples (check_status_refuted). So does a contract with a syntax error (check_status_syntax_refuted). Everything else is as documented. The analysis itself is a parameter. |
| C101 | What watch displays | partial | `Properties_Cli` | Proved for terminals whose lines can be rewritten. On others a change of the files that brings no new problem is overlooked, and problems already fixed stay on display (watch_display_refuted). |
| C102 | Asserts as contracts | partial | `Properties_Asserts` | Proved for functions whose body goes on after the leading asserts on a line of its own, whose frames carry the name and file of the function object, and that are not called again below themselves. Refuted otherwise: a recursive call that fails the asserts is swallowed; a function behind a wrapper written in another file never has a failing assert reported; in a function of asserts only, the last one is not a precondition. |
| C103 | Unsatisfiable leading asserts | partial | `Properties_Asserts` | The code counts inputs that fail the leading asserts as confirming, so the property is refuted; the partial theorem says exactly when that happens. |
| C104 | Deal contracts see the arguments of the call | partial | `Properties_Deal` | Proved for functions with positional parameters. Keyword-only parameters are passed twice, so every evaluation is a TypeError; *args arrive as one tuple. |
| C105 | Every deal contract is used | proved | `Properties_Deal` |  |
| C106 | A symbolic dictionary is some Python dictionary | proved | `Properties_SymMap` | Keys and values with a solver sort of their own. |
| C107 | A symbolic frozenset is some Python frozenset | proved | `Properties_SymMap` | Keys with a solver sort of their own, not the heap's. |
| C108 | Equality of symbolic dictionaries and sets is equality of their contents | proved | `Properties_SymMap` |  |
| C109 | Printed inputs read back as the same values | partial | `Properties_Repr` | proved for acyclic object graphs without one-item tuples, if only lists, tuples and sets have items or nothing is shared; whenever Python accepts the text of an acyclic graph without one-item tuples, it is right. Refuted in the code: a shared object first met as a dictionary value or keyword field gives a syntax error, a one-item tuple reads back as its item, a cyclic value has no text, and the text of a covering path's result is empty if the object was already named in the arguments |
| C11 | Slicing and indexing a lazy concatenation equals slicing the concatenated list | proved | `Properties_Seq` | Arbitrary nestings of concatenations and views; integer indices and slices of ints. |
| C110 | The printed call passes the described arguments | partial | `Properties_Repr` | proved for all signatures and arguments unless *args follow an ordinary parameter with a default or a **kwargs key is not an identifier; both refuted: f(x=1, 2) and f(a b=1) are syntax errors |
| C111 | Simulated clocks behave like real ones | partial | `Properties_Clock` | explored histories are exactly those of real clocks (before the year 100000, with sleeps of any sign); refuted: sleep with a negative number is accepted and lets the monotonic clock go back |
| C112 | Integer arrays hold what array.array holds | partial | `Properties_Array` | proved for the type codes b B h H q Q, without extend, for inserted and assigned values that fit; refuted: I and i are bounded by 16 bits and L and l by 32, insert and item assignment are unchecked, and extend leaves an iterator inside so that len raises TypeError |
| C113 | Layers of function replacements behave like a stack | partial | `Properties_Patch` | Proved when replacements of one function in force together have different code objects; refuted for two replacements made by one factory, which share their code: the inner one calls itself and the layers cannot be removed. |
| C114 | F-strings have the text Python gives them | partial | `Properties_FString` | Proved for fields with no conversion and a non-symbolic format, and for !s and !r without format. Refuted: a conversion with a format raises SystemError, !a gives the repr unescaped, and a symbolic format raises SystemError. |
| C115 | Comprehensions and membership tests agree with Python | partial | `Properties_Opcodes` | Proved when every key equals itself; refuted for keys such as NaN, which are entered again each time once a symbolic key has been seen. |
| C116 | The operators not and is agree with Python | partial | `Properties_Opcodes` | Proved for symbolic objects with __bool__ and operands other than symbolic types. Refuted: not on symbolic bytes, memory views, deques and default dictionaries raises AttributeError; a symbolic type is never is the type it stands for. |
| C117 | Argument types that fit a signature are subtypes of it | partial | `Properties_Unify` | Soundness proved for types without type variables (variable-length tuples only where none is wanted) and for closed union-free argument types against types with variables. Refuted: List[int] fits Tuple[int, ...], tuple fits Tuple[object, object], bindings made by unions are forgotten, List[int] does not fit object, and some tuples raise IndexError or TypeError. |
| C118 | A call of an overloaded function is checked against the overload it fits | partial | `Properties_Overload` | First fitting signature proved for positional arguments, class annotations and equal argument counts; with type variables, generics and unions the chosen signature is proved to fit. Refuted in the code for keyword arguments (their names are matched instead of their values), for signatures of different argument counts (TypeError), for parameters without annotation and for *args. |
| C119 | dict(...) builds the dictionary Python would | partial | `Properties_DictNew` | Items, length and exceptions proved for pairs with a length and hashable keys; order proved without repeated keys. Refuted in the code: order with repeated keys, order of keywords that update the argument's keys, ValueError for unhashable keys, TypeError for pairs that are iterators, aliasing of mutable pairs, repeated NaN keys. |
| C12 | The mutable sequence shell behaves as a Python list | proved | `Properties_Seq` | Get/set/delete of items and slices, insert, append, extend, pop, reverse, *=, len and iteration, in any order. sort delegates to the builtin sorted and is not modelled. |
| C120 | Every usable concrete subclass is tried for an argument | partial | `Properties_TypeChoice` | Proved: termination, only concrete subclasses are chosen, all concrete subclasses reached through usable classes are chosen on some path, the chances, and the choice of enumeration members. Refuted in the code: a subclass whose base is in no module is never tried; classes with their own __copy__ are tried although copying methods should exclude them (the name is misspelt). |
| C121 | A skipped call returns what the function would have returned | partial | `Properties_ShortCut` | Both directions proved if the result and the arguments that count as immutable contain only atoms and tuples. Refuted in the code: a returned mutable value is compared after the caller changed it; tuples holding ordinary objects and objects with their own hash count as immutable and are not copied. |
| C122 | Checking a module checks every contract in it | partial | `Properties_Targets` | Proved exactly for functions, classes and modules of functions and classes. Refuted: __init__ with another condition is checked against the invariants, because the conditions without them are dropped; a method's own analysis_kind directive is not looked at when its class is checked; functions wrapped in an object (functools.lru_cache) and nested classes are not checked. |
| C123 | Messages are put where the problem is | partial | `Properties_Locate` | Proved for functions that are not decorated, except for the line after the function, which counts as its own. Refuted: when the line is not known (0) the text of the file's last line is quoted; a message about a decorated function is put on the wrapper, in the decorator's file; a message about a method inherited from a class in the same file stays outside the class. |
| C124 | The patch printed with a counterexample repeats the path | partial | `Properties_Interps` | Proved for paths whose preconditions call no skipped function and whose body changes no object that one returned. Refuted in the code: the values are printed when the path is over, so an object changed by the body is printed changed and then changed again; calls made by the preconditions are in the patch although only the body is called again. |
| C125 | The function printed for a callable argument behaves as on the path | partial | `Properties_Callable` | Proved for all lists of values except a single text, nan or infinity, and for calls by position. Refuted in the code: a single text is printed without quotes (so it is a name, or another value), a single nan or infinity as an undefined name; the printed function takes no arguments by name; a copy cannot be made once all values were returned; == uses the index of the first callable for both. |
| C126 | Symbolic classes answer issubclass as a real class does | partial | `Properties_SymType` | Proved for questions about classes and tuples of classes, for every interpretation that satisfies the constraints. Refuted in the code: isinstance(x, int \| str) is false whatever x is, and so is what Python refuses with TypeError; after isinstance(x, numbers.Integral) no path has an int (a registered subclass); a class capped at object after it was capped at Hashable is only int or str. |
| C127 | The objects in a symbolic container are the same objects every time | partial | `Properties_Heap` | Proved: lazily made elements refine a memory in which all exist from the start, with checkpoints, for programs that look up through an older snapshot only what was looked up before; calls that use their argument without copying it, and calls that change nothing, are as in Python. Refuted: the first look up through an older snapshot gives the object of the newest one; __old__ shares the elements of the argument (both views index the same heap), so changes of elements never show in postconditions that compare with __old__; copy.deepcopy of a symbolic list shares its elements. |
| C128 | A frozenset keeps the elements it was made with | partial | `Properties_Freeze` | Proved for all histories in which no set is changed after a frozenset was made from it. Refuted otherwise: frozenset(s) keeps s itself, so changes of s show in it. |
| C129 | isinstance answers as outside the analysis | partial | `Properties_InstanceOf` | Proved for classes without hooks and abstract base classes in nested tuples and objects that do not claim another __class__. Refuted for mocks and other objects with a __class__ of their own, protocols with data members (TypeError), and metaclasses with __instancecheck__ (ignored) or only __subclasscheck__ (used). |
| C13 | Slice views show the slice of the underlying sequence | proved | `Properties_Seq` | compose_slices, used only for memoryviews, is under C46. |
| C130 | Functions that take functions work as outside the analysis | partial | `Properties_Wrap`, `Properties_CacheFn` | Proved for functions that do not raise, and for cached functions that depend on their argument alone, up to ==, with arguments that have a hash. Refuted: None for the function of accumulate, filterfalse and groupby raises TypeError; cached functions are evaluated again, so one that depends on state or tells equal arguments apart gives other results, arguments without a hash are accepted, and cache_info counts no calls. C130_limited covers caches of any size limit with clearing; C130_no_cache covers maxsize=0 for every function. |
| C131 | Texts of decimal numbers | partial | `Properties_DecText` | Reading is proved for texts whose letters are ASCII; refuted for others: the pattern ignores case in Unicode, so a dotless i or a long s is taken for a letter and a text that Python's decimal module refuses is accepted (decimal_text_read_refuted; decimal_text_read_letters says exactly which texts are read). Round trip, notations and values are proved in full. Not modelled: Python's limit on the number of digits in int(text). |
| C132 | Meaning of conditions in docstrings | partial | `Properties_Cond` | Proved when no closure variable has the name of a global and the function's own name means the function in its postcondition. Refuted otherwise: globals are laid over closure variables (closure_variable_refuted); in a postcondition the function's name hides a parameter or a built-in with that name, for example len in a method called len (function_name_refuted); keyword arguments of implies are dropped silently (condition_syntax_refuted); a function implies of the user's own module is never called (own_implies_refuted). |
| C133 | The editor shows the worst current message of each line, and nothing in a document that is being edited | partial | `Properties_Lsp` | Proved: what is shown after each publication for all histories of whole actions, and that nothing is shown while editing in all interleavings in which the editor does not speak about a document whose entry the analysis thread holds. The code violates the rest: a change between the snapshot and the treatment of the entry leaves stale messages in the edited document or loses the note that it is being edited. |
| C134 | The exceptions declared in a docstring are exactly those that are permitted | partial | `Properties_Raises` | Proved for all docstrings made of the two documented layouts, blank lines and prose. The code violates the rest: names of enclosing functions are looked up in the globals, and fields with several names or lists on the next line declare nothing. |
| C135 | Arguments of unknown type act as the values they stand for | partial | `Properties_SymObj` | Proved for all programs that copy a lazy argument only after its value was made and use in-place operators on immutable values only when no other name has the argument. Refuted otherwise: proxy_inplace_op stores the new value in the shared proxy (y = x; x += 1 changes y), and __deepcopy__ of a value not yet made returns the proxy itself, so the recorded argument changes with the function's changes. |
| C136 | The registry of contracts for other libraries keeps what it accepted | partial | `Properties_Registry` | C136_accepted_stays holds for all histories; the rest for all histories that do not hand the same list object to two registrations and (for evaluation) conditions without optional parameters. Refuted: exempting a function with skip_body=False after it was looked up is refused; a list given to two functions is extended for both; a condition with an optional parameter the function lacks is accepted but fails with KeyError when evaluated. |
| C137 | The arguments made for a function reach its parameters | partial | `Properties_CallArgs` | Proved for all signatures and values, if the keys of the dictionary made for **kwargs are not names of parameters that can be given by keyword. Refuted otherwise: the call fails with TypeError or a keyword-only parameter silently gets another value; and conditions see *args as a list where the function sees a tuple. |
| C138 | Only arguments declared as mutable may change | partial | `Properties_MutArgs` | Proved for arguments whose differences show in ==. Refuted: an argument that is not-a-number is always reported as changed, and a change to an equal value of another type is not seen. |
| C139 | Unions in the annotations of type stubs are read alike on all Python versions | partial | `Properties_Stubs` | Proved for all annotations whose strings contain no brackets, commas or bars. Refuted for strings: a bar in Literal["\|"] is taken for the operator. |
| C14 | Sequence comparison is equality/lexicographic order | partial | `Properties_Seq` | Ordering is proved. Equality holds when the builtin parts are all lists or all tuples; the code violates it when they are mixed (a list extended by a tuple). |
| C140 | All signatures of a function in a stub are found | partial | `Properties_StubFind` | Proved: the right signatures, each as often as defined, and completeness; their order if no function is defined partly inside and partly outside the ifs of a block. Refuted: overloads inside an if are moved after those that follow the if. |
| C141 | Each instruction is shown to the installed tracing modules that want it | partial | `Properties_Tracer` | Proved for all histories in which no module is installed twice at once and every module is accepted. Refuted: a module installed twice receives no instructions after one removal, and a refused module stays on the stack. |
| C142 | Code is traced exactly if the innermost enclosing block says so | partial | `Properties_Tracer` | Proved for all nestings, left normally or by an exception other than GeneratorExit. Refuted: a block left by GeneratorExit does not restore the state. |
| C143 | The result of an intercepted instruction is put in place exactly when the instruction has ended | partial | `Properties_PostOp` | Proved for all trees of calls in which no intercepted instruction with a callback fails. Refuted for failing ones: the callback stays on the stack, runs later after the same instruction, or hides that of the caller. |
| C144 | The operands of an instruction are found whatever code ran before | proved | `Properties_StackCache` | Code objects are identified by their address; the cache holds references, so addresses are not reused. |
| C145 | Intercepting calls does not change what is called | partial | `Properties_CallTarget` | Proved for all callable objects except built-in methods that the object's class redefines and objects that carry __self__, __func__ or __call__ themselves. Refuted for these: super().append in a redefined append with a contract calls itself again; an object's own attribute __call__ is taken for its method; an object with __self__ and no __name__ cannot be called. |
| C146 | The values shown are those the solver chose | partial | `Properties_SmtLit` | Proved for floats in the solver's IEEE sort and for sequences in the form the solver gives them. Refuted where floats are modelled as reals: 1/3 is no float, so the value shown is not the one chosen. |
| C147 | len, hash, repr, sorted and setattr treat objects as CPython does | partial | `Properties_Protocol` | Proved for special methods with proper results, or that raise exceptions. Refuted: improper results are not refused or reduced, own attributes __len__ are called, objects with only __getitem__ cannot be sorted, symbolic names of attributes cannot be set. |
| C148 | Built-in functions can be called under analysis in all the ways CPython allows | partial | `Properties_PatchSig` | Proved: all accepted calls stay accepted for 35 of 42 functions, and for all of them without keywords. Refuted: keywords of str, bytes, bytearray, memoryview, type, int.from_bytes and dict(d, arg=1) raise TypeError; sorted(l, f) and d.get(k, default=v) are accepted. |
| C149 | Rounding a float modelled as a real matches Python's definitions | proved | `Properties_FloatReal` | Over the rationals: the rounding of CPython's result to a double is not modelled; the later check in __round__ can only discard paths. |
| C15 | The mutable map shell has dict contents | proved | `Properties_Map` | Histories of get/contains/len/bool/set/del/pop/setdefault/update/clear over any initial items, and ==. |
| C150 | Division and non-finite operands of floats modelled as reals match CPython | partial | `Properties_FloatReal` | divmod proved for all operands; refuted for powers with an infinite or not-a-number operand: 2.0 ** inf gives 1.0, 2.0 ** nan gives 1.0, (-inf) ** 2.0 gives -inf. |
| C151 | Rounding a float modelled as a double matches CPython | partial | `Properties_FloatPrec` | int and round without digits proved; math.floor, ceil and trunc give the right number but as a float (refuted as ints); is_integer fails on infinities; abs keeps the negative zero; round(1.115, 2) is 1.12 and round(1.5e308, 2) is infinite. |
| C152 | // and % of floats modelled as doubles match CPython | partial | `Properties_FloatPrec` | Right for exact quotients and small remainders; refuted: 5.0 % 3.0 is -1.0 (IEEE remainder of the solver), -6.0 % -3.0 is -3.0, 1.0 // 0.1 is 10.0, inf // 2.0 is inf, -1.0 // inf is -0.0. |
| C153 | icontract contracts mean what icontract means by them | partial | `Properties_Icontract` | Proved for conditions without the special names; refuted: _ARGS and _KWARGS, snapshots of the program's state (taken after the call), parameters called _ or like the function, defaults overridden by globals, invariants without self. |
| C154 | Objects are constructed as Python does while contracts are enforced | partial | `Properties_EnfCall` | Proved for classes whose metaclass has no __call__ and whose __init__ returns None; refuted: metaclasses with __call__ (singletons, enums) are bypassed, a value returned by __init__ is ignored, an own attribute __init__ is called. |
| C155 | A call is checked with the contract of the function that is called | partial | `Properties_EnfCall` | Proved when the object's class finds the called function under its name; refuted for super().method(), which is checked with the contract of the derived class. |
| C156 | The coverage heuristic is safe and aims where it says | partial | `Properties_Oracle` | The bias is proved if no two objects that held different conditions had the same id(). It is refuted otherwise: internalize remembers id(expr) of objects that it does not keep alive, so that a new condition can be taken for an old one and be biased. |
| C157 | Composed search heuristics stay within their bounds | proved | `Properties_Oracle` | All compositions and histories; is_possible is a parameter assumed to be right for the claim about preferences. |
| C158 | Errors of the program are reported, and only those | partial | `Properties_Noise` | Reported unless it is a TypeError with one of six texts and none of three others (exactly). Refuted: a __hash__ that returns a string, re.match on a number and errors about user classes named like symbolic ones go unreported; messages that name any symbolic class but int, float, str and bytes are reported as errors of the program. |
| C159 | Temporary changes of process-wide state are undone | partial | `Properties_Scoped` | Proved for every program: scoped variables are restored; the import path is after a block what it was before; sys.modules is restored where the alternatives load; hooks are restored if no exception arises inside a block of pure imports; reads give the innermost value if no block binds None. Refuted otherwise: prefer_pure_python_imports has no finally, so an exception leaves every hook wrapped once more; imported_alternative reloads before its try, so a failing reload leaves the suppressed modules unimportable; what a module appends to sys.path during its import is dropped; a block binding None is taken for no block. The import system itself is not modelled. |
| C16 | The mutable map shell keeps dict iteration order, and its copies are independent and complete | partial | `Properties_Map` | Order agrees with a dict while only new keys are added; the code violates the full property: updating an initial key moves it, reversed() repeats it, popitem takes it, reinsertion keeps the old place, a copy reports a stale length, and d \| m prefers the left operand. |
| C160 | Verbose reports show the same problems, with their source | partial | `Properties_Verbose` | Proved for all messages and files: the same messages, the same status, the context and the parts of a report; the message differs from its text only in line breaks for spaces. Refuted: the replacement of ' when ' also hits string literals in the counterexample, so a call with an argument containing it is printed broken. How numbers are written is a parameter. |
| C161 | Status and output of search, diffbehavior and cover | partial | `Properties_Commands` | Proved for targets that load or fail to import. Refuted otherwise: checked_fn_load handles only import errors, so a name that is not found and a directory without Python files end in an uncaught exception, with the status for 'no input' or 'the functions differ'; cover in pytest format discards the tests of all functions covered so far when a later function is not deterministic. Analyses and loading are parameters. |
| C162 | Default dictionaries behave as collections.defaultdict | partial | `Properties_DefDict` | Proved for every history in which keys looked up other than by d[k] are there (or there is no factory) and items are popped from at most one: same results, same entries in the same order, same calls of the factory. Refuted otherwise, for every dictionary with a factory: 'in' is true for a missing key and stores it, get and setdefault ignore their default, pop does not raise; popitem takes the first item instead of the last. The methods copy, fromkeys, \| and reversed, which the stand-in lacks, are not modelled. |
| C163 | Incremental encoders give what encoding at once gives | partial | `Properties_IncEnc` | Proved for texts that can be encoded, in any pieces, and for one final piece whose last character cannot; with the strict handler no error is lost and the calls together give what encoding at once gives. Refuted otherwise: an error is not raised by the piece that has it and blocks all output until the final call, text after the first replaced character is lost, and stream readers and writers always raise. Handlers are per character. |
| C164 | Case and character classes of symbolic strings are those of str | partial | `Properties_CaseFn` | Predicates, upper and casefold proved for all strings; lower is right for exactly the strings without a word-final capital sigma (title, swapcase, capitalize right for these, refuted otherwise); translate refuted for integers beyond a C int. Facts about the Unicode database are hypotheses (record sane), checked outside the proofs for every code point with CPython. |
| C165 | Texts of nested containers are those of Python | partial | `Properties_NestRepr` | Every text given is Python's, except for derived sets (class name lost, refuted) and one-item tuples (C39); there is a text for every acyclic object and none for any cyclic one (refuted: Python prints an ellipsis, here the recursion limit is hit). |
| C166 | Parts of inputs are independent of each other | partial | `Properties_VarNames` | Proved for all nestings of types in which no key of a TypedDict continues another key and for parameter names without underscore. Refuted otherwise: a TypedDict with keys start (a time) and start_hour (an int) has one solver variable for both, so values of start_hour above 23 are never tried; likewise data and datalen, and parameters x and x_2_at. |
| C167 | Numeric values of characters | partial | `Properties_UniNum` | decimal and digit proved for every string and table, numeric when floats are doubles for tables of whole doubles and the fractions of Unicode. Refuted: with floats as reals the value of a character such as one third differs from Python's; with a default argument every call is a TypeError. |
| C168 | Inputs of user classes are made and printed by constructor calls | partial | `Properties_Construct` | Making inputs proved for all constructors; the printed call makes the object again if constructors do not change their arguments. Refuted otherwise: the arguments are printed as the constructor left them. Generic classes, TypedDicts and the text itself are elsewhere. |
| C169 | An enum input may be every value of the enum | partial | `Properties_Construct` | Proved for enums; of a Flag exactly the members of one bit are chosen. Refuted for Flag: combinations of members, and the empty one, never are chosen, so a condition that fails only for them is confirmed. |
| C17 | The association-list dict is a dict | partial | `Properties_Map` | Full for keys equal to themselves; a key that is not (nan) is inserted twice by repeated assignment. |
| C170 | len, repr, str, format and hash call special methods as Python does | partial | `Properties_Special` | Proved for methods that are functions (for len, of any kind in the class) and return a proper result or raise. Refuted: results are not checked, hashes of -1 and of more than 64 bits are not changed as Python does, static and class methods are not bound, len takes methods of instances. |
| C171 | Attributes by symbolic names | partial | `Properties_Special` | getattr, hasattr and their forks proved; setattr proved for native names and refuted for symbolic ones, for which it raises TypeError. |
| C172 | Bytes and bytearrays own their contents | partial | `Properties_ByteAlias` | Proved for all programs that make bytearrays from bytes and bytearrays only and do not use tobytes: every object has Python's contents after any history and errors are the same. Refuted for bytearray(list), bytearray(memoryview) and memoryview.tobytes(), which keep the sequence they were given. |
| C173 | Arguments of built-in types range over the values of their type | partial | `Properties_MakeInput` | Complete for all nested types on paths where floats are doubles. Sound if the reals the solver gives are doubles; refuted otherwise: where floats are modelled as reals (the usual choice) a third is met, and -0.0 is not. Items of uniform tuples are modelled as made one by one; dictionaries whose keys the solver holds itself are C106-C108. |
| C174 | Naming a line of a function checks that function | partial | `Properties_LineFind` | Proved: what is found has the line or ends on the line before it, and exactly the functions that have the line are found if none ends on the line before and there are no inherited methods and classmethods. Refuted: the line of a def that directly follows another function finds that one; an inherited method gives KeyError if the derived class comes first by name; classmethods are not found. |
| C175 | Checking a file checks the module in that file | partial | `Properties_LoadFile` | Proved for any sequence of files of one project whose top-level names are not those of modules loaded before. Refuted: the second of two files with the same name in two directories, and a file with the name of a loaded module, give the module in sys.modules; a symbolic link with another name is not found. |
| C176 | Methods of built-in types may be called through the type | partial | `Properties_SelfCall` | Proved for symbolic objects of just the class and native ones of any subclass, with arguments that are not tuples of symbolic values. Refuted: int.bit_length of a symbolic bool, and endswith of an ordinary string with a tuple of a symbolic string, are TypeErrors. What methods compute is a parameter; the methods are other properties. |
| C177 | Where directives hold | partial | `Properties_Directive` | Proved for files whose comments start at the first column exactly when they are at the top level; what the scopes' directives mean and how they are combined is C33. Refuted otherwise: a comment at the first column inside a function holds for the whole module, and one behind a statement at the top level is ignored. Not modelled: source that tokenize cannot read. |
| C178 | Names in generated tests | partial | `Properties_TestRefs` | Proved when references that begin alike are in one module, none begins with pytest or the name of a test, and exceptions are builtins or referenced elsewhere. Refuted otherwise: the program's own exception classes are not imported, of two classes with one name in different modules one stands for the other, types like NoneType have no name in builtins, and a test hides a function with the test's name. |
| C179 | Logical operations of decimals | proved | `Properties_DecLogic` |  |
| C18 | Lazy set combinations are the set operations | proved | `Properties_Set` | Membership, iteration, len, truth and comparisons of any nesting of lazy set combinations. |
| C180 | Thousands separators in formatted decimals | proved | `Properties_Thousands` | For groupings as localeconv gives them: empty, or positive lengths below CHAR_MAX that end with 0 or CHAR_MAX. |
| C181 | Layout of formatted decimals | proved | `Properties_DecFormat` | For numbers with integer digits, groupings as localeconv gives them, and an exponent only with the types e, E, g and G, as Decimal.__format__ calls it. |
| C182 | strftime of dates and times | proved | `Properties_Strftime` | Flags and widths of the C library between the per cent sign and the letter are not modelled; neither is %:z, which Python 3.12 added and this code leaves to the C library. |
| C183 | Decimals made of floats | proved | `Properties_DecFloat` | Given that as_integer_ratio gives the ratio in lowest terms, which for symbolic floats is part of C149. |
| C184 | Rotating and shifting decimals | proved | `Properties_DecShift` | NaN operands leave by the check that is modelled with the other decimal operations. An integral number of places is one with exponent zero, as the decimal specification asks. |
| C19 | The mutable set shell is a set | partial | `Properties_Set` | All histories on any number of sets except s - t with a mutable t (which keeps a reference to t: later changes of t show, and it can become cyclic) and union() without arguments (returns the set itself); both are violations of the full property by the code. |
| C20 | Integer arithmetic on symbolic ints is Python's | proved | `Properties_IntOps` |  |
| C21 | Integer exponentiation on symbolic ints is Python's | partial | `Properties_IntOps` | Holds for non-negative exponents and base 0. The code violates it for a non-zero base with a negative exponent: it returns an int where Python returns a float. |
| C22 | int/bytes conversion round-trips and matches CPython | partial | `Properties_IntOps` | Holds except where the code violates it: signed with length 0 (OverflowError for 0), negative lengths (no ValueError), byte orders other than big/little (no ValueError). |
| C23 | Bounded-int comparisons are decided correctly | proved | `Properties_IntOps` |  |
| C24 | Symbolic ranges are Python ranges | proved | `Properties_IntOps` | Slicing realizes the range and uses CPython's own slicing, so it is not modelled; non-int members are not modelled. |
| C25 | String searching matches CPython | partial | `Properties_Str` | startswith, endswith (with tuples) and `in` are proved for all bounds. find/rfind/index/rindex are proved when start and end are at least -len(s); below that the code searches the wrong window (refuted). count is proved except for the empty string in a window that starts after its end, where the code says 1 and CPython 0 (refuted). |
| C26 | String splitting, partitioning and replacement match CPython | partial | `Properties_Str` | Everything is proved for all inputs except split/rsplit on whitespace with a positive maxsplit that is reached: the code strips the far end of the string, CPython does not (refuted). |
| C27 | String padding and case-preserving layout match CPython | partial | `Properties_Str` | Everything is proved for all inputs except expandtabs, which ignores the column of a tab (refuted; proved when every tab is at a multiple of the tab size). Whitespace and line-boundary tables are parameters. |
| C28 | Hex conversion of bytes matches CPython | partial | `Properties_Bytes` | hex(), fromhex() and the round trip are proved for all bytes, also with a whitespace separator. hex(sep, n) is proved for n <= 0 and when n divides twice the length; otherwise the groups are misplaced (refuted). |
| C29 | The UTF-8 codec round-trips and rejects invalid input | partial | `Properties_Codec` | Encoding, the round trip and strict decoding (acceptance, result and error position) are proved for all inputs apart from surrogates, which the code accepts both ways (refuted). errors=ignore equals the standard up to surrogates; errors=replace emits one U+FFFD per byte instead of per ill-formed sequence (refuted). |
| C30 | Base64 round-trips and matches binascii | partial | `Properties_Base64` | Encoding, wrapping and the round trip proved for all data and alphabets. Decoding equals binascii except that data after padding is rejected in non-strict mode and input of only pad characters is accepted in strict mode (both refuted). Options canonical and ignorechars, which call the real function, are not modelled. |
| C31 | struct packing matches CPython | partial | `Properties_Struct` | Format parsing, pack, unpack, unpack_from, pack_into and iter_unpack for padding, char, bool and all integer codes with explicit byte order are exactly what the struct documentation says, for all formats, arguments and buffers; round trip for every prefix. The code departs from struct on native prefixes (read as big-endian), numbers for '?', over-long buffers, offsets out of range, partial or empty records and empty formats: refuted with witnesses. String, float and pointer codes are handed to the real struct module and are parameters. |
| C32 | Character-class masks denote the right sets of code points | proved | `Properties_CharMask` | All mask operations denote the sets they name for every mask meeting the class invariant and every value of sys.maxunicode, keep the invariant, and are canonical; masks computed from predicates, function domains and the category table hold exactly the right code points. |
| C33 | Option overlay and limit splitting | partial | `Properties_Options` | Overlay, directives and default limits proved. Splitting limits: proved below 2^53 iterations and for finite timeouts in exact binary64 rounding; refuted for sys.maxsize at priority 1.0 (2^63 and -1) and for an infinite timeout at priority 0 (NaN). |
| C34 | Minimisation finds the smallest realizable value | proved | `Properties_PathSearch` | Bisection over every path. The solver is a parameter that decides satisfiability of an interval of scores. |
| C35 | deque model behaves as collections.deque | partial | `Properties_Deque` | Every history of calls on unbounded deques proved (items equal to themselves), and bounded deques for calls that need not drop items. Refuted: extend/extendleft/insert/* ignore maxlen; append with maxlen 0 raises; count misses items not equal to themselves; maxlen is a method. Not modelled: missing reflected * and ordering operators, and the error for mutation during iteration. |
| C36 | Slicing symbolic tuples matches Python | partial | `Properties_ArrTuple` | Slices with a step other than 1 ignore the step (refuted with concrete slices); equality of two array-backed tuples compares the arrays beyond the length (refuted). Everything else agrees with tuple semantics. |
| C37 | Lazily created int sequences (strings, bytes) are fixed sequences | partial | `Properties_LazySeq` | Every access agrees with one fixed tuple for all histories, except that a comparison with a longer sequence lets items beyond the end show up later, and backward slices with a positive stop see only the items created so far; both refuted with concrete histories. |
| C38 | int() and float parsing of symbolic strings matches CPython | partial | `Properties_Parse` | int() agrees with CPython except that the base is ignored whenever some character is not an ASCII digit below the base (int('9', 8) is 9), and CPython's 4300 digit limit is not applied. float() of plain decimals is exact (rounding not modelled). |
| C39 | list.index, str.join and container reprs match CPython | partial | `Properties_ListFn` | index agrees with CPython for start 0 and items equal to themselves; with a start it is relative to the slice (refuted). Reprs and join proved; the repr of a one-item tuple lacks its comma (refuted). |
| C40 | Symbolic randomness stays in range | partial | `Properties_Random` | Replay is proved for all histories. Answers are in range when copies make the same calls at the same positions; otherwise refuted (random() can be 1.0). The randrange contract is exact for positive steps and unsatisfiable for negative ones (refuted). |
| C41 | Contract enforcement order | partial | `Properties_Enforce` | Enforcement means exactly the natural semantics of contracts for programs with arbitrary nesting, exceptions and state, for contracts whose preconditions compile and whose mutable arguments exist. Otherwise refuted: a precondition that does not compile makes calls raise TypeError; an unknown mutable argument gives PostconditionFailed before anything runs. |
| C42 | gcd, copysign and float predicates match math | partial | `Properties_MathFn` | gcd proved for up to two arguments; three or more raise TypeError (refuted). copysign has the right value but not always the float type or the sign of zero (refuted). |
| C43 | A slice of a list is independent of the list | partial | `Properties_Seq` | The slice has the right value when taken, but aliases the list: the code violates independence. |
| C44 | A symbolic list can be extended by any iterable | partial | `Properties_Seq` | Holds for sequences; the code keeps an iterator as part of the list, so len() raises TypeError. |
| C45 | In-place repetition changes the list object itself | partial | `Properties_Seq` | The value is right, but a new object is returned. |
| C46 | Writing through a memoryview changes exactly the viewed bytes | partial | `Properties_Seq` | Holds for in-range indices and slices with non-negative start; violated for indices past the view, negative starts and absent bounds. |
| C47 | String ordering is lexicographic | proved | `Properties_Str` | All four operators, all pairs of strings. |
| C48 | bytes case mapping and stripping match CPython | proved | `Properties_Bytes` | All bytes, all strip sets. |
| C49 | A bytearray holds only bytes and behaves as CPython's | partial | `Properties_Bytes` | All histories proved. bytearray(list) and bytes(list with symbolic ints) store values unchecked (refuted). |
| C50 | Incremental UTF-8 decoding equals one-shot decoding | partial | `Properties_Codec` | No data is lost or invented for any chunking; but each call decodes at most one character, a final call leaves bytes and truncated ends unreported, and empty input raises IndexError (refuted). |
| C51 | ASCII and Latin-1 codecs are exact | proved | `Properties_Codec` | All inputs; handlers are any that answer per character. |
| C52 | Subscripting a concrete container by a symbolic number matches CPython | partial | `Properties_Fanout` | Proved for ints on sequences and all numbers on dicts. A symbolic float index on a list returns an element where CPython raises TypeError (refuted). |
| C53 | all() and any() over symbolic conditions match CPython | partial | `Properties_AllAny` | Result and __bool__ exceptions proved when the iterator itself does not raise. An iterator that raises after a deciding symbolic item, and the number of items taken, are refuted. |
| C54 | Dates follow the Gregorian calendar | proved | `Properties_Calendar` | Specification: the n-th day is n-1 steps of next_day from 0001-01-01; relational spec of each call over the list of day numbers, shown to be deterministic. Out of scope: string formatting, hashing, pickling, arguments outside the C int range (where CPython raises OverflowError and the code ValueError). |
| C55 | Symbolic dates are all dates, once | proved | `Properties_Calendar` | The bridge constraint is modelled as the conjunction of the range, bridge and day-of-month constraints added to the solver. |
| C56 | Timedelta arithmetic is exact | partial | `Properties_Timedelta` | Full for timedeltas made under analysis. Fails for a timedelta made before the analysis as left operand of -, //, %, divmod (refuted), and timedelta - date gives a date instead of TypeError (refuted). Float factors are rationals. |
| C57 | Datetimes behave as moments | proved | `Properties_Datetime` | Time zones are an arbitrary function from the fields and fold to an offset under 24h. astimezone is proved for target zones with a fixed offset. Hash values are modelled by the tuple hashed. |
| C58 | Dates and datetimes do not compare | partial | `Properties_Datetime` | Proved unless the datetime was made before the analysis; then date.__eq__ and friends compare the days (refuted). |
| C59 | Times compare by UTC and equal times hash alike | partial | `Properties_Datetime` | Proved for offsets of whole minutes; for others comparison drops the seconds and hashing fails an assertion (refuted). |
| C60 | Symbolic datetimes, times and time zones cover all values | partial | `Properties_Datetime` | No datetime with fold=1 is generated (the fold is chosen but dropped), and the two extreme offsets are excluded by strict comparisons (both refuted); everything else is covered. |
| C61 | ISO texts of dates and times round-trip | partial | `Properties_Iso` | Writing, reading the documented form and the round trip are proved in full. On other strings the code differs from CPython: IndexError for short datetimes, signs/spaces/underscores accepted, an empty time accepted, and the further ISO forms of 3.11 refused (refuted with concrete strings). |
| C62 | Analysed code cannot cause side effects | partial | `Properties_Audit` | Proved for all programs, with rules narrowed by arguments only where the default agrees. Refuted outside of that: --unblock os.listdir:/tmp blocks other os.listdir calls that are allowed by default; a reject rule os.system:rm lets other os.system calls pass; engage_auditwall after enabled_auditwall leaves the wall off. Which C calls raise audit events is CPython's business and not modelled. |
| C63 | --unblock allows exactly what it names | partial | `Properties_Audit` | Proved when the arguments in the rule have no colon. Refuted for arguments with a colon (URLs, Windows paths): the proposed rule does not allow the operation. |
| C64 | diffbehavior reports exactly the differences | partial | `Properties_Explore` | Proved if both functions have a behaviour on the input, no path was cut short and the comparison raises nothing. Refuted otherwise: a path cut short (timeout) counts as exhausted, so 'All paths exhausted, functions are likely the same!' is printed of functions that differ; a path whose values cannot be compared or shown is passed over; an input found illegal in one function is shown as a difference ('raises IgnoreAttempt()'); one iteration less than the limit is made. |
| C65 | cover examples are real and complete | partial | `Properties_Explore` | Proved for legal inputs and, for completeness, if no path was cut short. Refuted: an attempt given up as illegal is shown as an example that returns None. |
| C66 | the examples shown are a greedy cover | partial | `Properties_Cover` | Proved for cover. For diffbehavior everything but the tie-break is proved: the longer of two differences that cover as much is taken, contrary to the docstring. The choice need not be irredundant (refuted). |
| C67 | results are compared like Python compares them, but for the documented tolerances | partial | `Properties_FlexEq` | Proved for values without iterators and without unrealized parts, and for iterators of different types. Refuted: two generators, or two iterators of the same type, always pass for the same; a dictionary with an unrealized value passes for one that lacks the key, in one direction only. |
| C68 | generated tests have names of their own and pass | partial | `Properties_Cover` | Names are distinct within one function; those of f and f_2, or of A.f and A_f, clash (refuted). A generated test passes if the result consists of numbers, strings and containers; one for a function that returns NaN always fails (refuted). |
| C69 | Pattern.match and fullmatch agree with Python's engine | partial | `Properties_Regex` | Proved for the patterns `supported` describes, among them all `simple` patterns on all strings. The code is wrong otherwise: each condition has a refutation with a concrete pattern and string. |
| C70 | Pattern.search and finditer find the matches Python finds | partial | `Properties_Regex` | search is proved for supported patterns that do not match the empty string at endpos, where the code never looks; finditer for supported patterns and bounds within the string. |
| C71 | Pattern.sub and subn replace the matches Python replaces | partial | `Properties_Regex` | Proved for supported patterns that neither look behind the match nor match the empty string, with replacements that depend on the texts of the groups. The rest is refuted. |
| C72 | match objects answer as Python's | partial | `Properties_Regex` | group and groups, and start, end and span of groups that took part, are proved right; lastindex and expand under conditions; groupdict and the rest are refuted. |
| C73 | character classes cover the characters they match | partial | `Properties_CharClass` | Proved for all patterns without IGNORECASE, and with it for the terms `fine_term` describes; the code is wrong for the others (escaped special characters, letters without case, most ranges), which is refuted. Unicode's tables are parameters with stated facts. |
| C74 | In-memory text files | partial | `Properties_StringIO` | Proved for every history without negative sizes, readline limits away from the start, readline beyond the end, and getvalue or newlines after close; each of these is refuted. Also proved: the newline pattern does on symbolic strings what the model takes it to do. |
| C75 | Contracts are inherited | partial | `Properties_Inherit` | Nothing is invented, for every hierarchy. Postconditions and invariants are inherited under single inheritance. Refuted: with two bases the second one's contract is dropped; superclass invariants are not applied to new methods; a subclass's invariants are not applied to inherited methods without conditions; a precondition in a subclass displaces superclass invariants and may be stronger than the superclass's; invariants of a second contract kind are ignored. |
| C76 | Contracts in docstrings are read as written | partial | `Properties_Docstring` | Proved for the lines of the docstring; when the opening quotes share a line with the header of an indented section, the indentation is lost and what follows is absorbed into the section, which is refuted. Closing quotes are taken off before the model starts. |
| C77 | Copies of arguments are faithful and independent | partial | `Properties_Copy` | Proved for graphs in which no object is reachable from what it is constructed from, and symbolic containers do not contain themselves. Otherwise an object may be copied twice, and realizing does not end: refuted with witnesses. Objects that cannot be copied stay shared when best effort is asked for. |
| C78 | The signature of a constructor accepts the calls of the class | partial | `Properties_Sig` | Proved for signatures that use names alike; for constructors, when exactly one of __new__ and __init__ takes variable arguments, or __new__ is built in. Refuted with witnesses otherwise: __new__(cls, x) with __init__(self, x) loses x; when both have **kw an argument named self is asked for; when both have *args there is no signature; a name that is positional-only in one and a keyword in the other is mixed up. |
| C79 | json.dumps writes JSON that json.loads reads back | proved | `Properties_Json` | With ensure_ascii a high surrogate directly followed by a low one is joined on reading, as in CPython: such strings are excluded. Not modelled: default=, cls=, check_circular (values are trees), subclasses of the JSON types, the NaN payload. |
| C80 | json.loads accepts exactly the JSON texts | partial | `Properties_Json` | Every JSON text is read as its value; conversely proved for texts whose \u escapes have four hexadecimal digits, and exactly characterized in general. Refuted: "\u1_23" is accepted, and "\u-123" raises a ValueError that is not a JSONDecodeError (CPython's scanner rejects both with JSONDecodeError). Not modelled: object_hook, object_pairs_hook, parse_constant, cls, positions in error messages, the recursion limit. |
| C81 | json.loads of bytes finds their encoding | proved | `Properties_Json` | bytes.decode is a parameter that inverts the encoding of the text at hand. |
| C82 | Skipping calls does not change what is reported | partial | `Properties_Skip` | Proved for programs that do not change objects returned to them by calls, and (for confirmations) for skipped functions that return and keep their contracts. Refuted with witnesses otherwise: the result of a skipped call that is changed afterwards is reconciled in its changed state, giving a false counterexample; a function that raises is skipped as if it returned, so all paths are confirmed although the call raises, or the exception raised while reconciling ends the analysis; == between values that differ gives a false counterexample. Not modelled: overloads, type variables, functions that depend on more than their arguments. |
| C83 | Decimal plus, minus and abs round into the context | proved | `Properties_DecArith` | All contexts with prec >= 1 and Emin <= 0 <= Emax. Coefficients are lists of digits; the capitals setting is left out. |
| C84 | Decimal addition and subtraction are exact, then rounded once | proved | `Properties_DecArith` | Operands already converted to Decimal; conversion of other types is not modelled. |
| C85 | Decimal multiplication and fused multiply-add are rounded once | proved | `Properties_DecArith` |  |
| C86 | Decimal division is correctly rounded | proved | `Properties_DecArith` |  |
| C87 | Decimal integer division and remainders are exact | proved | `Properties_DecArith` | Finite operands; division by zero and infinities of these operations are in C88 only in part. |
| C88 | Decimal operations on NaN and infinity | proved | `Properties_DecArith` |  |
| C89 | Decimal comparisons are the exact numerical order | proved | `Properties_DecOrder` | Operands that are already decimals; conversion of ints, floats and fractions is not modelled. |
| C90 | compare_total is a total order, and max and min follow it | proved | `Properties_DecOrder` | Operands are canonical: no leading zeros in coefficients and payloads. |
| C91 | quantize rounds exactly, or refuses | proved | `Properties_DecOrder` |  |
| C92 | Decimals convert to integers exactly | proved | `Properties_DecOrder` |  |
| C93 | next_plus and next_minus give the neighbouring numbers | partial | `Properties_DecNext` | Proved for explicit contexts that trap none of Underflow, Subnormal, Inexact, Rounded, Clamped; with Overflow trapped, Overflow may be raised instead when the result is infinite or x is beyond all numbers. Refuted: without an explicit context the interpreter's context lacks the private methods used (AttributeError); the list of ignored flags is never consulted, so a trapped Overflow or Inexact is raised. |
| C94 | Decimal square roots are correctly rounded | partial | `Properties_DecNext` | Proved for every explicit context. Refuted for the interpreter's own context, which is used when none is passed: it has no _shallow_copy (AttributeError). |
| C95 | watch notices exactly the changes to the watched files | partial | `Properties_Watch` | No change is ever missed, for any targets. A change is reported only if there is one when no target lies below another; watching a directory together with a file in it makes every check report a change (watch_false_alarm_refuted), so every pass is abandoned after a second. |
| C96 | The worker pool loses, invents and duplicates nothing | partial | `Properties_Watch` | Everything holds for every schedule except that a pass may end with a result still in the queue: a worker that posts and ends between the time-out of the main thread's wait and its next pruning (pass_reports_every_result_refuted). Such a result is reported during the next pass (pass_reports_every_result_partial). |
| C97 | A watch pass never gets stuck | partial | `Properties_Watch` | Proved for pools of at least one worker. On a machine with one processor the pool has cpu_count() - 1 = 0 workers: no schedule starts a worker, reports anything or ends the pass (pass_can_finish_refuted). |
| C98 | watch analyses the most recently edited files first | partial | `Properties_Watch` | Files are taken up in the opposite order: they are submitted most recent first, but the pool pops from the end of its list, so the most recently edited file comes last. |
| C99 | An abandoned pass leaves no worker behind | partial | `Properties_Watch` | Proved when every worker thread already has its process. A thread that has not created its process yet is not stopped (worker.proc is None) and goes on to create it, beside the workers of the next pool. |

## How the properties are proved

* Engine (C01-C10, C52, C62-C65): a tree invariant kept by every iteration, for all
  schedules of solver answers, random choices and aborts; a per-assignment run relation;
  simulation between explorations that differ in how paths are judged.
* Containers (C11-C19, C35-C37, C43-C46): equations against lists, slices,
  insertion-ordered association lists and sets; invariants over operation histories.
* Numbers, dates, parsing, codecs (C20-C24, C28-C32, C38-C42, C47-C51, C54-C61): arithmetic
  against exact integers or rationals; round trips; acceptance characterizations.
* Regular expressions (C69-C73): the backtracking matcher against the list of ways to
  match in order of preference, by induction on fuel and on the size of the pattern. The
  specification was compared with CPython's re module on random patterns and strings.
* Text files (C74): a simulation with CPython's StringIO state over all call histories; the
  specification was compared with io.StringIO on random histories.
* Contracts on classes (C75): induction on the class hierarchy.
* Docstrings (C76): a round trip, from a docstring written out to what is read from it.
* Copies (C77): an isomorphism between original and copy, as an invariant of the memo.
* Constructor signatures (C78): the result as four parts, each compared with the rules of
  the language for calls; these rules were compared with CPython on random signatures.
* JSON (C79-C81): a grammar as inductive relations; the scanner is sound and complete for it, the
  encoder writes in it, and the round trip follows from the two.
* Skipped calls (C82): a small-step interpreter with choices against a big-step semantics without.
* Decimal arithmetic (C83-C88): `Dec_Model` follows decimallib.py digit by digit; `Dec_Spec` states rounding in rational numbers. `Dec_Fix`/`Dec_Arith` prove that `_fix` rounds every number correctly and that numbers in one interval between neighbouring multiples of five units round alike, which covers the negligible-operand shortcut of addition and the sticky digit of division.
* Decimal order and places (C89–C92): the digit-string comparison is shown equal to the comparison of rationals; compare_total is characterized by a relation `precedes` that is shown irreflexive and transitive; quantize and the integer conversions use one lemma about rescaling (the result satisfies `rounds`).
* Decimal neighbours and roots (C93, C94): rounding x plus or minus a tenth of the smallest unit with ceiling/floor is shown to give the least/greatest number held; Newton's integer iteration is shown to halve its error and reach the integer root, and the sticky digit keeps the order with respect to all half units. Roots are stated through squares, so no real numbers are needed.
* Watching (C95-C99): `Watch_Model` has the file listing, the change check and the worker pool. The pool is a transition system at the granularity of the statements of `run_iteration`; an arbitrary list of events (main-thread steps, worker steps, clock movements) drives it. `Watch_Pool` proves one invariant over all reachable states (distinct tracked workers, every living thread tracked, first-in-first-out results, permutation of the submitted items) and builds finishing schedules explicitly. Not modelled: serialization between processes, signals other than as "the thread is dead afterwards", the LSP server.
* Command line (C100, C101): target resolution, exit status and printed lines of check, and the message table of watch. The analysis is a parameter; an uncaught exception is exit status 1 (Python's convention, part of the trusted base).
* Asserts and deal (C102-C105): Asserts_Model treats a function as a list of statements with lines; what a statement does, and the frames of whatever it calls, are arbitrary. The specification does not look at lines. Deal_Model has the argument extraction and the loop over contracts; deal's validators are functions of what they are passed.
* Symbolic dictionaries and frozensets (C106-C108): SymMap_*; solver arrays are a default with finitely many exceptions, one assignment of a path is followed, constraints the assignment violates exclude it; heap-sorted keys and SymbolicDict.copy are not modelled.
* Printed inputs (C109, C110): the walrus-naming repr context, its cleanup, format_boundargs, against an evaluator and the grammar of expressions and calls (Repr_*). Texts are trees of brackets, commas and assignments; atoms' own texts are taken to denote them.
* Clocks (C111): the registered contracts as a filter on histories of readings, against any-two-readings conditions (Clock_*).
* Arrays (C112): bounds, generation and checks on top of the mutable sequence shell of C12, against CPython's arrays with 1, 2, 4 and 8 byte items (Array_*).
* Function replacement (C113): tracers.py 206-268, dictionaries of overrides and of next
  functions keyed by code object; the specification is a stack of replacements per function.
* F-strings (C114): the interceptors of FORMAT_VALUE and BUILD_STRING with the interpreter's own
  halves of these opcodes; the specification concatenates converted and formatted parts.
* Opcodes (C115, C116): the interceptors of MAP_ADD, SET_ADD, CONTAINS_OP, UNARY_NOT and IS_OP with the
  interpreter's halves on a stack of cells; the specifications are Python's comprehensions, membership,
  truth and identity.
* Type matching (C117): dynamic_typing.unify on a type language with unions, tuples, callables and type
  variables, over any class hierarchy; the specification is an inductive subtyping relation. TypedDicts are
  not modelled.
* Overloads (C118): find_best_sig and the choice in the short-circuiting wrapper, on top of Unify_Model; inspect.Signature.bind is Repr_Spec's take_args; values are their classes. Proved by induction over the signatures, soundness through C117.
* dict(...) (C119): the loop over the pairs, the conflict branch and the keyword update of _dict, over Map_Model's SimpleDict and ShellMutableMap; pairs are references into a heap. Without a path (no state space) _dict is not modelled. Proved by induction over the pairs against Map_Spec's dict.
* Choice of classes (C120): the subclass map of type_repo.py, iter_types and choose_type of core.py and the enumeration branch of proxy_for_type; forks are the path's decisions, probabilities are rationals. Proved by induction over the queue (termination by a weight over a ranked hierarchy) and over the list of choices.
* Skipped calls (C121): the mutability test, consider_shortcircuit and the deferred comparison of shortcircuit; objects live in a heap that the rest of the path may change arbitrarily; copies are C77's. A function that raises during the comparison and functions that read global state are not modelled.
* Choice of what to check (C122): `Targets_Model` has analyze_module, analyze_class, analyze_function and the listing of a module's members; which conditions the parsers find, by kinds of analysis, is given, and only the options enabled and analysis_kind are kept.
* Places of messages (C123): `Locate_Model` has MessageGenerator and ClampedCheckable; file contents, absolute paths and whether two names are of one file are parameters.
* Replayed calls (C124): `Interps_Model` has FunctionInterps, fn_returning and patch_to_return over programs that call skipped functions and look at or change what they return; what the program does otherwise is not modelled.
* Callable arguments (C125): `Callable_Model` has SymbolicCallable (calls, copies, comparison, what is printed); `Callable_Spec` is what the printed expression does in Python, with the meaning of arbitrary text as a parameter and that of what repr prints given by the value (C109).
* Symbolic classes (C126): `SymType_Model` has SymbolicTypeRepository, SymbolicType and _issubclass under an arbitrary interpretation of the solver's sort and subclass function; issubclass between known classes and the list of classes to try (C120) are parameters; one class is symbolic.
* Elements of symbolic containers (C127): `Heap_Model` has the heaps of the state space (snapshots, checkpoint, look up that creates the value in every heap) and the way symbolic sequences use them in a call (the argument, the checkpoint, the copy with the current snapshot). `Heap_Spec` has the memory in which every element exists from the beginning, and Python's deep copies. Elements have one changeable field and one type; what a deep copy does to sharing between the fields of elements is not modelled.
* Frozensets (C128): `Freeze_Model` has the constructors of sets and frozensets and what they keep of their argument; `Freeze_Spec` has sets with elements of their own.
* isinstance (C129): `InstanceOf_Model` has the replacement of isinstance and issubclass for classes that are not symbolic, with the metaclass's `__subclasscheck__` as a parameter; `InstanceOf_Spec` has CPython's isinstance with its hooks. Classes that only have `__bases__` are not modelled.
* Functions that take functions (C130): `Wrap_Model` has the wrappers of map, filter, reduce and the itertools functions around the real ones, and cached functions; `Wrap_Spec` says what the results are, and has lru_cache. How far an iterator is consumed is not modelled.
* Decimal texts (C131): decimallib.py Decimal.__new__ (a text), __str__, to_eng_string and the regular expression _parser, as a deterministic reader over a small alphabet of characters (digits, point, signs, the letters of the special words in three forms, underscore, space, others); specified by the grammar in the documentation of decimal.Decimal as an inductive relation; proved by induction on digits and by the lemmas about coefficients of C83. \d is modelled as a digit with its value (Unicode digits included).
* Conditions (C132): condition_parser.py ImpliesTransformer, compile_expr, condition_from_source_text; fnutil.py fn_globals; the name tables of core.attempt_call. Expressions are a small syntax tree with a state-and-exception semantics whose calls, truth, iteration and operators are parameters; the specification is a big-step relation with a rule for implies and a table of what names stand for; proved by mutual induction on the relation and by nested induction on expressions. Lambdas and assignment expressions are left out.
* Editor diagnostics (C133): `Lsp_Model` is the shared dictionary of `lsp_server.py` with one step per access and the two loops over snapshots; `Lsp_Spec` says when a document is being edited and which message of a line is to be shown. Proved by invariants over histories; interleavings that break it are given as refutations. Not modelled: the watcher and the paths it is given (see C95-C99), log messages, shutdown.
* Declared exceptions (C134): `Raises_Model` runs the pattern of `parse_sphinx_raises` over the characters of a docstring; `Raises_Spec` describes docstrings by lines. Proved by induction on the lines, with blank lines absorbed by the next match. The meaning of a name (`eval`) and the classes of blanks and word characters are parameters.
* Arguments of unknown type (C135): `SymObj_Model` models the lazy proxy (`_wrapped`, `proxy_inplace_op`, `__deepcopy__`) over a heap of lists, variables and proxies; `SymObj_Spec` runs the same programs on the values themselves. Simulation proof over all programs of `fine` uses; two refutations. Not modelled: attribute forwarding, the choice of the type (C120, C126), special methods the proxy lacks.
* Registered contracts (C136): `Registry_Model` models `register_contract.py` in full except warnings, weak references and the search of class hierarchies for the module (a given function), with lists of signatures as objects, and the evaluation of conditions in `RegisteredContractsParser`; `Registry_Spec` says with relations what is accepted and entered. Invariant: no two functions share a list, and what is entered fits. Not modelled: parsing of stubs (given).
* Arguments of calls (C137): `CallArgs_Model` models `gen_args` and the standard library's `BoundArguments.args`/`.kwargs`; `CallArgs_Spec` is Python's binding of arguments to parameters. Proof by the four groups of parameters of a signature. Not modelled: making of the values (given).
* Declared mutable arguments (C138): `MutArgs_Model` models the comparison of the arguments before and after the call in `attempt_call`, over numbers, booleans, not-a-numbers and nested lists with Python's equality; the spec compares the values themselves. Not modelled: user-defined `__eq__`.
* Stubs (C139): model of _rewrite_with_union with its growing text, indices and stack; proved by induction over annotations as trees of brackets, bars and commas, for the text before and within each bracket. Refuted for strings that contain a bar.
* StubFind (C140): model of _sig_from_ast on trees of definitions, classes and ifs; compared with the stub's definitions in the order of its text. Not modelled: imports and type variables of the stub, which only decide whether an annotation can be read. Refuted: the order of overloads around an if.
* Tracer (C141, C142): model of the C tracer's table of handlers per instruction under push_module and pop_module, and of TraceSwap. Not modelled: the hooks by which the interpreter calls the tracer, threads. Refuted: installing a module twice, refused modules, GeneratorExit.
* PostOp (C143): model of the stack of callbacks after instructions; executions are trees of frames. Not modelled: inline cache entries, callbacks that fail. Refuted: instructions that fail.
* StackCache (C144): model of the cache of stack layouts, with the random number as an argument; the computation of a layout (_mark_stacks.h) is a parameter.
* CallTarget (C145): model of the finding of the function behind a call and of its replacement; compared with a relation that says which code a call runs. Not modelled: None as self, data descriptors, keyword names. Refuted: super() past a redefinition, attributes __call__ and __self__ of an instance.
* SmtLit (C146): model of the reading of float literals and sequences from the solver; compared with the SMT-LIB notation and the IEEE layout. Not modelled: approximation of irrational numbers, underscores in digits. Refuted: reals that are no floats.
* Protocol (C147): model of len, hash, repr, sorted and setattr on objects given by the outcomes of their special methods. Refuted: results that CPython refuses or reduces, sequences without __iter__, symbolic attribute names.
* PatchSig (C148): the parameters of the patches of built-in functions, against those of CPython 3.11 and Python's rule for binding arguments. Refuted: lost keywords, positional arguments that CPython refuses.
* Floats as reals (C149, C150): builtinslib 516-538, 798-806, 900-976, 1668-1757 over Q. The spec gives truncation, floor, ceiling and nearest-even as uniquely satisfied conditions, and C's float_divmod and float_pow in exact arithmetic on extended numbers. Not modelled: the rounding of results to doubles.
* Floats as doubles (C151, C152): builtinslib 677-699, 1013-1014, 1566-1663. Doubles are a sign and a rational magnitude with an explicit round-to-nearest-even at 53 bits. The solver's fp.rem is the IEEE remainder of SMT-LIB; == between solver terms on doubles is identity of bits. Shared by model and spec: the rounding, addition and division of doubles.
* icontract (C153): condition_parser 742-890 with the names that core.attempt_call and enforce give to conditions. Conditions and captures are arbitrary functions of the program's state and of the values of their parameters. The spec states icontract's checks as relations. Not modelled: source texts and lines of conditions.
* Calls under enforcement (C154, C155): enforce 48-59 and 239-282. Code is a list of events and a result; type.__call__ is the spec. The contracts come from the parser as a parameter.
* Search heuristics (C156, C157): `Oracle_Model` has the coverage heuristic with its tables (visits, summaries, probabilities, identities of conditions) and the four others as an inductive type with hooks and `decide`; `Oracle_Spec` says, on the paths themselves, what it means that a condition led to a location. Proved by an invariant over histories of hooks and decisions that ties the tables to those paths; the reuse of `id()` is refuted with a run. Probabilities are rationals, random numbers parameters.
* Telling errors from noise (C158): `Noise_Model` has the filter and its test on the text of TypeErrors; substring search is proved to be occurrence, the test is characterized exactly, and both ways of being wrong are refuted with messages of CPython 3.11.
* Scoped state (C159): the context managers add_to_pypath, imported_alternative, prefer_pure_python_imports and DynamicScopeVar as commands of a small language with sequencing, exceptions and handlers, run on sys.path, the import hooks, sys.modules and a variable; restoration by induction on programs, reads against a lexical semantics with a stack of values. Not modelled: what importing does, threads (the variable is thread local), the importer cache.
* Verbose reports (C160): long_describe_message, format_src_context, color and str.replace on Coq strings; the printed messages and the status against the set of problem states, the context against a filter of the numbered lines, the text by induction on its length.
* Other commands (C161): checked_fn_load, search, diffbehavior, cover with the outcomes of loading and of the analyses as parameters; cover's worklist by an invariant up to permutation.
* Default dictionaries (C162): PureDefaultDict with the mixin methods of MutableMapping over an insertion-ordered dict, against defaultdict; histories by a step lemma with the invariant that keys are distinct; the disagreements proved for all dictionaries.
* Incremental encoders (C163): StemIncrementalEncoder with the buffering of the standard library for ascii and latin-1, against encoding a character at a time.
* Case and character classes (C164): `CaseFn_Model.v` models the case conversions, case predicates, character-class predicates and translate of AnySymbolicStr over tables computed from single characters; `CaseFn_Spec.v` is CPython's unicodeobject.c (with the rule for the final sigma) over an abstract Unicode database whose needed facts are the record `sane`. Proofs by induction over strings with the text before each character as invariant.
* Texts of nested containers (C165): `NestRepr_Model.v` models the patched reprs over a heap of objects with the remaining stack depth as fuel; `NestRepr_Spec.v` is CPython's repr with the list of containers being printed. Agreement by well-founded induction on the least sufficient depth.
* Names of solver variables (C166): `VarNames_Model.v` models the names given to the solver variables of inputs (gen_args, TypedDict, tuples, dates, byte strings, arrays) with the counter of unique suffixes; `VarNames_Spec.v` says which values each part of a type has and when all combinations are possible under an assignment of values to names. Proof: names are distinct (prefix-freeness of roots, digits end where a non-digit follows), distinct names are independent.
* Numeric values of characters (C167): UniNum_Model has the functions of unicodedatalib.py, the tables of unicode_categories.py and limit_denominator; a solver function is any function that meets the asserted equations. The spec is a lookup in the table. The masks are CharMask_Model's, the doubles FloatPrec_Model's.
* Inputs of user classes and enums (C168, C169): Construct_Model makes an input from a tree of choices and prints it from what the arguments are by then; constructors are a parameter, any function to an object's state and the arguments' new contents, or an error. The spec evaluates the call as Python does. For enums, list(typ) and the decisions are modelled; the spec defines the values of a class, with | for flags.
* Special methods and attributes by name (C170, C171): Special_Model has invoke_dunder and the builtins that use it, with methods as functions of their number of arguments, static and class methods and None, in the dictionaries of classes and instances. The spec finds the method by an inductive relation, binds it and checks results as CPython 3.11.
* Sharing of byte objects (C172): a store of lists, bytes, bytearrays and views and the operations that make and change them; simulation of Python's store, in which only views share, for programs that copy; concrete histories for bytearray(list), bytearray(view) and tobytes.
* Making arguments of built-in types (C173): types and the draws of the solver and the tree along a path; soundness and completeness by nested induction on the type, uniqueness of keys by the length of their set; 1/3 and -0.0 as witnesses where floats are reals.
* Finding the function on a line (C174): members of modules and classes as a tree in the order of names; soundness and completeness by nested induction against paths that lead to functions; witnesses for adjacent functions, inherited methods and classmethods.
* Loading the files to check (C175): paths, packages and sys.modules; invariant that cached modules are where their names say, over any sequence of files; witnesses for equal names, loaded modules and links.
* Calls of methods through their class (C176): dispatch on native and symbolic objects and arguments, with the methods as a parameter; equal to Python's dispatch by case analysis; witnesses for a subclass and for a tuple.
* Caches of limited size (C130): `CacheFn_Model` has calls, cache_clear and cache_info of a function of the state; `CacheFn_Spec` has the least-recently-used cache; invariant that what is kept is what the function gives.
* Directive (C177): comments with their columns and surroundings, the regular expression of a directive as a scanner, sys.modules by dotted name, the chain of scopes of a function. Proved by induction on texts and on the package path; the chain feeds Options (C33).
* TestRefs (C178): the references of covered paths, the import statements made of them in any order, the names printed in the tests; specification: what a dotted name means after the statements of a Python file. Proved by showing that all statements that bind a name bind it to the same object.
* DecLogic (C179): digit strings as lists, filling and cutting to the precision, zip and strip; specification by the digit at each place from the right. Proved with lemmas about nth of rev for each of these steps.
* Thousands (C180): the grouping of a locale and the loop that takes groups from the right, with fuel; specification: groups of given lengths, width and least padding. Proved by induction on the fuel with an invariant that says what is left of the grouping; the fuel is shown to suffice.
* DecFormat (C181): the parsed format specification as a record, the functions that put a formatted number together; specification by inductive relations for each part. Uses C180 for the integer part.
* Strftime (C182): the scan of the format, the three replacements, time.strftime as a function of what it writes for each letter; specification by relations for numbers of fixed width and the parts of an offset. Proved by induction on the length of the format; the escaping of zone names is undone by the library.
* DecFloat (C183): from_float over mantissa and exponent, as_integer_ratio as a parameter with its contract. Proved with divisors of powers of two and Gauss's lemma; an actual ratio function shows that the contract can be met.
* DecShift (C184): rotate and shift over texts of digits with Python's slices; the statement is by the digit that counts 10^i of the coefficients. Proved by relating digits of the value to places of the text.
* Tools (C33, C34, C66-C68): permutation and greedy-choice invariants, structural induction.

## Simplifications that matter for reading the theorems

* Path-wise reading: a symbolic value is the concrete value it has under the assignment.
  That forks and realizations are sound is the matter of C01-C06 only.
* Leaves of symbolic lists are concrete sequences in C11-C14 and C43-C46. An SMT-array leaf
  ignores the step of a slice (C36), so those theorems say nothing about it.
* Floats are exact rationals or abstract where they occur; rounding is not modelled except
  for the rounding of timedelta and option values, which is round-half-even on rationals.
* A timeout, an UnexploredPath or an internal error is an adversarial abort at any point.

## Not modelled

Z3 itself, CPython's bytecode interpreter and CrossHair's opcode tracing, the
process/watch/LSP front ends' I/O, float rounding, wall-clock behaviour,
Pattern.split and the parser of regular expressions, decimal numbers (decimallib), json, the plugin mechanism, the
registration of patches, type-directed input generation.
