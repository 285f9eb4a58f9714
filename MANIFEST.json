{
 "claims": [
  {
   "property": "C01",
   "status": "proved",
   "theorems": [
    "C01_confirmed_sound",
    "C01_confirmed_sound_par"
   ],
   "note": "For any program, inputs, schedule, timeouts and solver that never lies. The _par version covers parallel forks, where an input has at least one run with a good outcome."
  },
  {
   "property": "C02",
   "status": "proved",
   "theorems": [
    "C02_refuted_real"
   ],
   "note": "REFUTED implies an input whose own run ends refuted."
  },
  {
   "property": "C03",
   "status": "proved",
   "theorems": [
    "C03_terminates",
    "C03_finished_parts_frozen"
   ],
   "note": "2^d iterations suffice for programs of decision depth d without realization; finished parts of the tree never change."
  },
  {
   "property": "C04",
   "status": "proved",
   "theorems": [
    "C04_confirmed_is_closed"
   ],
   "note": ""
  },
  {
   "property": "C05",
   "status": "proved",
   "theorems": [
    "C05_path_consistent",
    "C05_same_question_same_answer"
   ],
   "note": ""
  },
  {
   "property": "C06",
   "status": "proved",
   "theorems": [
    "C06_realization_consistent",
    "C05_path_consistent"
   ],
   "note": ""
  },
  {
   "property": "C07",
   "status": "partial",
   "theorems": [
    "C07_exhaustive",
    "C07_none_of_the_above",
    "C07_selected_partial",
    "C07_selected_refuted"
   ],
   "note": "The first option that holds is returned, with probability proportional to its weight; the sentinel exactly if none holds. 'Every possible option can be selected' is refuted for options implied by earlier ones and proved otherwise."
  },
  {
   "property": "C08",
   "status": "partial",
   "theorems": [
    "C08_last_partial",
    "C08_all_partial",
    "C08_sharing_harmless",
    "C08_forgotten_refuted",
    "C08_no_decision_refuted"
   ],
   "note": "Results are modelled as shared heap objects. The cap survives only if the last explored path set it; an earlier capped path is forgotten, and a path without decisions is never capped (both refuted by concrete histories). Without caps the sharing is proved harmless, which justifies the value-based search-tree model."
  },
  {
   "property": "C09",
   "status": "partial",
   "theorems": [
    "C09_confirmed",
    "C09_confirmed_reached_partial",
    "C09_counterexamples_real",
    "C09_answers_partial",
    "C09_not_confirmed",
    "C09_pre_unsat_partial",
    "C09_pre_unsat_refuted",
    "C09_confirmed_reached_refuted",
    "C09_answers_refuted"
   ],
   "note": "attempt_call, the loop and the final verdict composed with the search-tree engine, for every program, schedule and truthful solver. Refuted parts: 'Unable to meet precondition' is also shown when the precondition held but the body was cut short; 'Confirmed' is shown when a precondition raised a declared exception; max_iterations=0 crashes."
  },
  {
   "property": "C10",
   "status": "proved",
   "theorems": [
    "C10_collect",
    "C10_one_per_place",
    "C10_order",
    "C10_clamp"
   ],
   "note": "File names are represented by their rank in string order; the unrepresentable-value marker test is a parameter."
  },
  {
   "property": "C100",
   "status": "partial",
   "theorems": [
    "check_status_partial",
    "check_load_failure_status",
    "check_success_means_success",
    "target_name_resolution",
    "check_status_refuted",
    "check_status_syntax_refuted"
   ],
   "note": "A misspelt attribute of an existing module raises NotFound, which nothing catches: the process exits with 1, the status for counterexamples (check_status_refuted). So does a contract with a syntax error (check_status_syntax_refuted). Everything else is as documented. The analysis itself is a parameter."
  },
  {
   "property": "C101",
   "status": "partial",
   "theorems": [
    "watch_display_partial",
    "watch_display_refuted"
   ],
   "note": "Proved for terminals whose lines can be rewritten. On others a change of the files that brings no new problem is overlooked, and problems already fixed stay on display (watch_display_refuted)."
  },
  {
   "property": "C102",
   "status": "partial",
   "theorems": [
    "C102_which_functions",
    "C102_reported_partial",
    "C102_result",
    "C102_recursive_refuted",
    "C102_wrapped_refuted",
    "C102_only_asserts_refuted"
   ],
   "note": "Proved for functions whose body goes on after the leading asserts on a line of its own, whose frames carry the name and file of the function object, and that are not called again below themselves. Refuted otherwise: a recursive call that fails the asserts is swallowed; a function behind a wrapper written in another file never has a failing assert reported; in a function of asserts only, the last one is not a precondition."
  },
  {
   "property": "C103",
   "status": "partial",
   "theorems": [
    "C103_unmet_confirms_partial",
    "C103_unsatisfiable_refuted"
   ],
   "note": "The code counts inputs that fail the leading asserts as confirming, so the property is refuted; the partial theorem says exactly when that happens."
  },
  {
   "property": "C104",
   "status": "partial",
   "theorems": [
    "C104_pre_partial",
    "C104_post",
    "C104_ensure_partial",
    "C104_keyword_only",
    "C104_pre_refuted",
    "C104_star_refuted"
   ],
   "note": "Proved for functions with positional parameters. Keyword-only parameters are passed twice, so every evaluation is a TypeError; *args arrive as one tuple."
  },
  {
   "property": "C105",
   "status": "proved",
   "theorems": [
    "C105_contracts"
   ],
   "note": ""
  },
  {
   "property": "C106",
   "status": "proved",
   "theorems": [
    "C106_dictionary_sound",
    "C106_dictionary_complete"
   ],
   "note": "Keys and values with a solver sort of their own."
  },
  {
   "property": "C107",
   "status": "proved",
   "theorems": [
    "C107_frozenset_sound",
    "C107_frozenset_complete"
   ],
   "note": "Keys with a solver sort of their own, not the heap's."
  },
  {
   "property": "C108",
   "status": "proved",
   "theorems": [
    "C108_equality",
    "C108_unification"
   ],
   "note": ""
  },
  {
   "property": "C109",
   "status": "partial",
   "theorems": [
    "shown_reads_back_partial",
    "shown_never_misread",
    "shared_dict_value_refuted",
    "shared_field_refuted",
    "single_tuple_refuted",
    "cyclic_refuted",
    "result_text_refuted"
   ],
   "note": "proved for acyclic object graphs without one-item tuples, if only lists, tuples and sets have items or nothing is shared; whenever Python accepts the text of an acyclic graph without one-item tuples, it is right. Refuted in the code: a shared object first met as a dictionary value or keyword field gives a syntax error, a one-item tuple reads back as its item, a cyclic value has no text, and the text of a covering path's result is empty if the object was already named in the arguments"
  },
  {
   "property": "C11",
   "status": "proved",
   "theorems": [
    "C11_slice",
    "C11_index",
    "C11_len_iter",
    "C11_spec_positions"
   ],
   "note": "Arbitrary nestings of concatenations and views; integer indices and slices of ints."
  },
  {
   "property": "C110",
   "status": "partial",
   "theorems": [
    "call_text_binds_partial",
    "default_then_args_refuted",
    "kwargs_key_refuted"
   ],
   "note": "proved for all signatures and arguments unless *args follow an ordinary parameter with a default or a **kwargs key is not an identifier; both refuted: f(x=1, 2) and f(a b=1) are syntax errors"
  },
  {
   "property": "C111",
   "status": "partial",
   "theorems": [
    "clock_histories",
    "monotonic_partial",
    "process_time_never_back",
    "sleep_takes_time",
    "negative_sleep_refuted"
   ],
   "note": "explored histories are exactly those of real clocks (before the year 100000, with sleeps of any sign); refuted: sleep with a negative number is accepted and lets the monotonic clock go back"
  },
  {
   "property": "C112",
   "status": "partial",
   "theorems": [
    "generated_arrays_exist",
    "arrays_generated_partial",
    "arrays_generated_refuted",
    "array_history_partial",
    "array_new_partial",
    "array_in_range_partial",
    "array_bounds_refuted",
    "array_insert_refuted",
    "array_setitem_refuted",
    "array_extend_refuted"
   ],
   "note": "proved for the type codes b B h H q Q, without extend, for inserted and assigned values that fit; refuted: I and i are bounded by 16 bits and L and l by 32, insert and item assignment are unchecked, and extend leaves an iterator inside so that len raises TypeError"
  },
  {
   "property": "C113",
   "status": "partial",
   "theorems": [
    "calls_follow_layers_partial",
    "undone_patches_leave_no_trace",
    "same_code_refuted"
   ],
   "note": "Proved when replacements of one function in force together have different code objects; refuted for two replacements made by one factory, which share their code: the inner one calls itself and the layers cannot be removed."
  },
  {
   "property": "C114",
   "status": "partial",
   "theorems": [
    "fstring_text_partial",
    "conversion_and_format_refuted",
    "ascii_refuted",
    "symbolic_format_refuted"
   ],
   "note": "Proved for fields with no conversion and a non-symbolic format, and for !s and !r without format. Refuted: a conversion with a format raises SystemError, !a gives the repr unescaped, and a symbolic format raises SystemError."
  },
  {
   "property": "C115",
   "status": "partial",
   "theorems": [
    "dict_comprehension_partial",
    "set_comprehension_partial",
    "membership_partial",
    "nan_key_refuted",
    "nan_item_refuted"
   ],
   "note": "Proved when every key equals itself; refuted for keys such as NaN, which are entered again each time once a symbolic key has been seen."
  },
  {
   "property": "C116",
   "status": "partial",
   "theorems": [
    "not_partial",
    "is_partial",
    "not_refuted",
    "is_refuted"
   ],
   "note": "Proved for symbolic objects with __bool__ and operands other than symbolic types. Refuted: not on symbolic bytes, memory views, deques and default dictionaries raises AttributeError; a symbolic type is never is the type it stands for."
  },
  {
   "property": "C117",
   "status": "partial",
   "theorems": [
    "match_sound_closed_partial",
    "match_sound_partial",
    "list_for_tuple_refuted",
    "tuple_for_pair_refuted",
    "union_binding_refuted",
    "match_incomplete_refuted",
    "match_error_refuted"
   ],
   "note": "Soundness proved for types without type variables (variable-length tuples only where none is wanted) and for closed union-free argument types against types with variables. Refuted: List[int] fits Tuple[int, ...], tuple fits Tuple[object, object], bindings made by unions are forgotten, List[int] does not fit object, and some tuples raise IndexError or TypeError."
  },
  {
   "property": "C118",
   "status": "partial",
   "theorems": [
    "overload_first_partial",
    "overload_sound_partial",
    "overload_keyword_refuted",
    "overload_arity_refuted",
    "overload_unannotated_refuted",
    "overload_star_refuted"
   ],
   "note": "First fitting signature proved for positional arguments, class annotations and equal argument counts; with type variables, generics and unions the chosen signature is proved to fit. Refuted in the code for keyword arguments (their names are matched instead of their values), for signatures of different argument counts (TypeError), for parameters without annotation and for *args."
  },
  {
   "property": "C119",
   "status": "partial",
   "theorems": [
    "new_dict_items_partial",
    "new_dict_order_partial",
    "new_dict_order_refuted",
    "new_dict_keyword_order_refuted",
    "new_dict_unhashable_refuted",
    "new_dict_iterator_pair_refuted",
    "new_dict_shared_refuted",
    "new_dict_nan_refuted"
   ],
   "note": "Items, length and exceptions proved for pairs with a length and hashable keys; order proved without repeated keys. Refuted in the code: order with repeated keys, order of keywords that update the argument's keys, ValueError for unhashable keys, TypeError for pairs that are iterators, aliasing of mutable pairs, repeated NaN keys."
  },
  {
   "property": "C12",
   "status": "proved",
   "theorems": [
    "C12_list_history",
    "C12_setslice",
    "C12_delslice"
   ],
   "note": "Get/set/delete of items and slices, insert, append, extend, pop, reverse, *=, len and iteration, in any order. sort delegates to the builtin sorted and is not modelled."
  },
  {
   "property": "C120",
   "status": "partial",
   "theorems": [
    "type_choice_partial",
    "type_choice_chances",
    "enum_choice",
    "hidden_base_refuted",
    "custom_copy_refuted"
   ],
   "note": "Proved: termination, only concrete subclasses are chosen, all concrete subclasses reached through usable classes are chosen on some path, the chances, and the choice of enumeration members. Refuted in the code: a subclass whose base is in no module is never tried; classes with their own __copy__ are tried although copying methods should exclude them (the name is misspelt)."
  },
  {
   "property": "C121",
   "status": "partial",
   "theorems": [
    "skipped_call_partial",
    "skipped_call_kept_partial",
    "lists_are_copied",
    "objects_are_copied",
    "skipped_only_if",
    "always_skipped",
    "skipping_no_error",
    "skipped_call_result_refuted",
    "skipped_call_tuple_refuted",
    "skipped_call_hash_refuted"
   ],
   "note": "Both directions proved if the result and the arguments that count as immutable contain only atoms and tuples. Refuted in the code: a returned mutable value is compared after the caller changed it; tuples holding ordinary objects and objects with their own hash count as immutable and are not copied."
  },
  {
   "property": "C122",
   "status": "partial",
   "theorems": [
    "function_checked",
    "function_skipped",
    "function_problems",
    "class_checked_partial",
    "abstract_not_checked",
    "init_invariants_partial",
    "module_checked_partial",
    "init_invariants_refuted",
    "method_kinds_refuted",
    "wrapped_function_refuted",
    "nested_class_refuted"
   ],
   "note": "Proved exactly for functions, classes and modules of functions and classes. Refuted: __init__ with another condition is checked against the invariants, because the conditions without them are dropped; a method's own analysis_kind directive is not looked at when its class is checked; functions wrapped in an object (functools.lru_cache) and nested classes are not checked."
  },
  {
   "property": "C123",
   "status": "partial",
   "theorems": [
    "message_stays",
    "message_moved_partial",
    "message_without_place",
    "message_on_function_partial",
    "message_made",
    "clamped_partial",
    "message_on_function_refuted",
    "message_moved_refuted",
    "message_decorated_refuted",
    "clamped_refuted"
   ],
   "note": "Proved for functions that are not decorated, except for the line after the function, which counts as its own. Refuted: when the line is not known (0) the text of the file's last line is quoted; a message about a decorated function is put on the wrapper, in the decorator's file; a message about a method inherited from a class in the same file stays outside the class."
  },
  {
   "property": "C124",
   "status": "partial",
   "theorems": [
    "counterexample_replays_partial",
    "patched_calls_in_order",
    "patch_only_if_called",
    "replay_changed_refuted",
    "replay_precondition_refuted"
   ],
   "note": "Proved for paths whose preconditions call no skipped function and whose body changes no object that one returned. Refuted in the code: the values are printed when the path is over, so an object changed by the body is printed changed and then changed again; calls made by the preconditions are in the patch although only the body is called again."
  },
  {
   "property": "C125",
   "status": "partial",
   "theorems": [
    "calls_in_order",
    "callable_repeats_partial",
    "callable_copy_partial",
    "callable_equal_partial",
    "callable_text_refuted",
    "callable_number_refuted",
    "callable_nan_refuted",
    "callable_by_name_refuted",
    "callable_copy_refuted",
    "callable_equal_refuted"
   ],
   "note": "Proved for all lists of values except a single text, nan or infinity, and for calls by position. Refuted in the code: a single text is printed without quotes (so it is a name, or another value), a single nan or infinity as an undefined name; the printed function takes no arguments by name; a copy cannot be made once all values were returned; == uses the index of the first callable for both."
  },
  {
   "property": "C126",
   "status": "partial",
   "theorems": [
    "symbolic_class_partial",
    "standard_allowed",
    "every_class_tried_partial",
    "symbolic_class_union_refuted",
    "symbolic_class_other_refuted",
    "registered_class_refuted",
    "capped_at_object_refuted"
   ],
   "note": "Proved for questions about classes and tuples of classes, for every interpretation that satisfies the constraints. Refuted in the code: isinstance(x, int | str) is false whatever x is, and so is what Python refuses with TypeError; after isinstance(x, numbers.Integral) no path has an int (a registered subclass); a class capped at object after it was capped at Hashable is only int or str."
  },
  {
   "property": "C127",
   "status": "partial",
   "theorems": [
    "elements_as_if_always_there_partial",
    "call_with_elements_partial",
    "call_without_changes_partial",
    "old_elements_are_the_elements",
    "older_snapshot_refuted",
    "old_elements_refuted",
    "deep_copy_refuted"
   ],
   "note": "Proved: lazily made elements refine a memory in which all exist from the start, with checkpoints, for programs that look up through an older snapshot only what was looked up before; calls that use their argument without copying it, and calls that change nothing, are as in Python. Refuted: the first look up through an older snapshot gives the object of the newest one; __old__ shares the elements of the argument (both views index the same heap), so changes of elements never show in postconditions that compare with __old__; copy.deepcopy of a symbolic list shares its elements."
  },
  {
   "property": "C128",
   "status": "partial",
   "theorems": [
    "frozen_sets_partial",
    "frozen_changes_refuted"
   ],
   "note": "Proved for all histories in which no set is changed after a frozenset was made from it. Refuted otherwise: frozenset(s) keeps s itself, so changes of s show in it."
  },
  {
   "property": "C129",
   "status": "partial",
   "theorems": [
    "isinstance_partial",
    "issubclass_as_python",
    "isinstance_class_attribute_refuted",
    "isinstance_protocol_refuted",
    "isinstance_hook_refuted",
    "isinstance_subclass_hook_refuted"
   ],
   "note": "Proved for classes without hooks and abstract base classes in nested tuples and objects that do not claim another __class__. Refuted for mocks and other objects with a __class__ of their own, protocols with data members (TypeError), and metaclasses with __instancecheck__ (ignored) or only __subclasscheck__ (used)."
  },
  {
   "property": "C13",
   "status": "proved",
   "theorems": [
    "C13_view_slice",
    "C13_nested"
   ],
   "note": "compose_slices, used only for memoryviews, is under C46."
  },
  {
   "property": "C130",
   "status": "partial",
   "theorems": [
    "accumulate_partial",
    "accumulate_initial",
    "dropwhile_partial",
    "takewhile_partial",
    "filterfalse_partial",
    "filter_as_python",
    "map_as_python",
    "reduce_as_python",
    "groupby_partial",
    "cache_partial",
    "C130_limited_partial",
    "C130_limited_pure_partial",
    "C130_no_cache_partial",
    "none_refuted",
    "cache_refuted",
    "C130_info_refuted"
   ],
   "note": "Proved for functions that do not raise, and for cached functions that depend on their argument alone, up to ==, with arguments that have a hash. Refuted: None for the function of accumulate, filterfalse and groupby raises TypeError; cached functions are evaluated again, so one that depends on state or tells equal arguments apart gives other results, arguments without a hash are accepted, and cache_info counts no calls. C130_limited covers caches of any size limit with clearing; C130_no_cache covers maxsize=0 for every function."
  },
  {
   "property": "C131",
   "status": "partial",
   "theorems": [
    "decimal_text_read_partial",
    "decimal_text_read_letters",
    "decimal_text_read_refuted",
    "decimal_text_one_meaning",
    "decimal_text_round_trip",
    "decimal_texts_differ",
    "decimal_text_scientific",
    "decimal_text_engineering",
    "decimal_text_engineering_value"
   ],
   "note": "Reading is proved for texts whose letters are ASCII; refuted for others: the pattern ignores case in Unicode, so a dotless i or a long s is taken for a letter and a text that Python's decimal module refuses is accepted (decimal_text_read_refuted; decimal_text_read_letters says exactly which texts are read). Round trip, notations and values are proved in full. Not modelled: Python's limit on the number of digits in int(text)."
  },
  {
   "property": "C132",
   "status": "partial",
   "theorems": [
    "condition_syntax_partial",
    "precondition_meaning_partial",
    "postcondition_meaning_partial",
    "condition_one_outcome",
    "condition_unchanged",
    "condition_syntax_refuted",
    "closure_variable_refuted",
    "function_name_refuted",
    "own_implies_refuted"
   ],
   "note": "Proved when no closure variable has the name of a global and the function's own name means the function in its postcondition. Refuted otherwise: globals are laid over closure variables (closure_variable_refuted); in a postcondition the function's name hides a parameter or a built-in with that name, for example len in a method called len (function_name_refuted); keyword arguments of implies are dropped silently (condition_syntax_refuted); a function implies of the user's own module is never called (own_implies_refuted)."
  },
  {
   "property": "C133",
   "status": "partial",
   "theorems": [
    "C133_shown_messages",
    "C133_old_messages_go",
    "C133_nothing_while_editing_partial",
    "C133_stale_messages_while_editing_refuted",
    "C133_editing_forgotten_refuted",
    "C133_marked_text"
   ],
   "note": "Proved: what is shown after each publication for all histories of whole actions, and that nothing is shown while editing in all interleavings in which the editor does not speak about a document whose entry the analysis thread holds. The code violates the rest: a change between the snapshot and the treatment of the entry leaves stale messages in the edited document or loses the note that it is being edited."
  },
  {
   "property": "C134",
   "status": "partial",
   "theorems": [
    "C134_declared_exceptions_partial",
    "C134_other_layouts_refuted",
    "C134_enclosing_names_refuted"
   ],
   "note": "Proved for all docstrings made of the two documented layouts, blank lines and prose. The code violates the rest: names of enclosing functions are looked up in the globals, and fields with several names or lists on the next line declare nothing."
  },
  {
   "property": "C135",
   "status": "partial",
   "theorems": [
    "C135_unknown_types_partial",
    "C135_other_names_change_refuted",
    "C135_recorded_arguments_change_refuted"
   ],
   "note": "Proved for all programs that copy a lazy argument only after its value was made and use in-place operators on immutable values only when no other name has the argument. Refuted otherwise: proxy_inplace_op stores the new value in the shared proxy (y = x; x += 1 changes y), and __deepcopy__ of a value not yet made returns the proxy itself, so the recorded argument changes with the function's changes."
  },
  {
   "property": "C136",
   "status": "partial",
   "theorems": [
    "C136_registration_partial",
    "C136_lookup_partial",
    "C136_accepted_stays",
    "C136_conditions_evaluate_partial",
    "C136_exempting_refuted",
    "C136_shared_lists_refuted",
    "C136_optional_parameters_refuted"
   ],
   "note": "C136_accepted_stays holds for all histories; the rest for all histories that do not hand the same list object to two registrations and (for evaluation) conditions without optional parameters. Refuted: exempting a function with skip_body=False after it was looked up is refused; a list given to two functions is extended for both; a condition with an optional parameter the function lacks is accepted but fails with KeyError when evaluated."
  },
  {
   "property": "C137",
   "status": "partial",
   "theorems": [
    "C137_arguments_reach_partial",
    "C137_key_names_parameter_refuted",
    "C137_conditions_see_lists_refuted"
   ],
   "note": "Proved for all signatures and values, if the keys of the dictionary made for **kwargs are not names of parameters that can be given by keyword. Refuted otherwise: the call fails with TypeError or a keyword-only parameter silently gets another value; and conditions see *args as a list where the function sees a tuple."
  },
  {
   "property": "C138",
   "status": "partial",
   "theorems": [
    "C138_only_declared_change_partial",
    "C138_undeclared_unchecked",
    "C138_nan_refuted",
    "C138_equal_values_refuted"
   ],
   "note": "Proved for arguments whose differences show in ==. Refuted: an argument that is not-a-number is always reported as changed, and a change to an equal value of another type is not seen."
  },
  {
   "property": "C139",
   "status": "partial",
   "theorems": [
    "C139_unions_partial",
    "C139_strings_refuted"
   ],
   "note": "Proved for all annotations whose strings contain no brackets, commas or bars. Refuted for strings: a bar in Literal[\"|\"] is taken for the operator."
  },
  {
   "property": "C14",
   "status": "partial",
   "theorems": [
    "C14_order",
    "C14_eq_partial",
    "C14_eq_refuted"
   ],
   "note": "Ordering is proved. Equality holds when the builtin parts are all lists or all tuples; the code violates it when they are mixed (a list extended by a tuple)."
  },
  {
   "property": "C140",
   "status": "partial",
   "theorems": [
    "C140_signatures_partial",
    "C140_order_partial",
    "C140_order_refuted"
   ],
   "note": "Proved: the right signatures, each as often as defined, and completeness; their order if no function is defined partly inside and partly outside the ifs of a block. Refuted: overloads inside an if are moved after those that follow the if."
  },
  {
   "property": "C141",
   "status": "partial",
   "theorems": [
    "C141_modules_partial",
    "C141_twice_refuted",
    "C141_refused_refuted"
   ],
   "note": "Proved for all histories in which no module is installed twice at once and every module is accepted. Refuted: a module installed twice receives no instructions after one removal, and a refused module stays on the stack."
  },
  {
   "property": "C142",
   "status": "partial",
   "theorems": [
    "C142_switching_partial",
    "C142_generator_exit_refuted"
   ],
   "note": "Proved for all nestings, left normally or by an exception other than GeneratorExit. Refuted: a block left by GeneratorExit does not restore the state."
  },
  {
   "property": "C143",
   "status": "partial",
   "theorems": [
    "C143_callbacks_partial",
    "C143_stale_refuted",
    "C143_hidden_refuted"
   ],
   "note": "Proved for all trees of calls in which no intercepted instruction with a callback fails. Refuted for failing ones: the callback stays on the stack, runs later after the same instruction, or hides that of the caller."
  },
  {
   "property": "C144",
   "status": "proved",
   "theorems": [
    "C144_layouts",
    "C144_kept"
   ],
   "note": "Code objects are identified by their address; the cache holds references, so addresses are not reused."
  },
  {
   "property": "C145",
   "status": "partial",
   "theorems": [
    "C145_same_call_partial",
    "C145_replaced",
    "C145_module_function",
    "C145_super_refuted",
    "C145_own_call_refuted",
    "C145_own_self_refuted"
   ],
   "note": "Proved for all callable objects except built-in methods that the object's class redefines and objects that carry __self__, __func__ or __call__ themselves. Refuted for these: super().append in a redefined append with a contract calls itself again; an object's own attribute __call__ is taken for its method; an object with __self__ and no __name__ cannot be called."
  },
  {
   "property": "C146",
   "status": "partial",
   "theorems": [
    "C146_floats_partial",
    "C146_distinct",
    "C146_sequences",
    "C146_reals_refuted"
   ],
   "note": "Proved for floats in the solver's IEEE sort and for sequences in the form the solver gives them. Refuted where floats are modelled as reals: 1/3 is no float, so the value shown is not the one chosen."
  },
  {
   "property": "C147",
   "status": "partial",
   "theorems": [
    "C147_len_partial",
    "C147_hash_partial",
    "C147_repr_partial",
    "C147_sorted_partial",
    "C147_len_refuted",
    "C147_hash_refuted",
    "C147_repr_refuted",
    "C147_sorted_refuted",
    "C147_setattr_refuted"
   ],
   "note": "Proved for special methods with proper results, or that raise exceptions. Refuted: improper results are not refused or reduced, own attributes __len__ are called, objects with only __getitem__ cannot be sorted, symbolic names of attributes cannot be set."
  },
  {
   "property": "C148",
   "status": "partial",
   "theorems": [
    "C148_accepted_partial",
    "C148_positional",
    "C148_keywords_refuted",
    "C148_dict_refuted",
    "C148_refused_refuted"
   ],
   "note": "Proved: all accepted calls stay accepted for 35 of 42 functions, and for all of them without keywords. Refuted: keywords of str, bytes, bytearray, memoryview, type, int.from_bytes and dict(d, arg=1) raise TypeError; sorted(l, f) and d.get(k, default=v) are accepted."
  },
  {
   "property": "C149",
   "status": "proved",
   "theorems": [
    "C149_conversions_proved",
    "C149_digits_proved",
    "C149_ratio_proved"
   ],
   "note": "Over the rationals: the rounding of CPython's result to a double is not modelled; the later check in __round__ can only discard paths."
  },
  {
   "property": "C15",
   "status": "proved",
   "theorems": [
    "C15_history",
    "C15_equality"
   ],
   "note": "Histories of get/contains/len/bool/set/del/pop/setdefault/update/clear over any initial items, and ==."
  },
  {
   "property": "C150",
   "status": "partial",
   "theorems": [
    "C150_divmod_proved",
    "C150_nonfinite_partial",
    "C150_power_partial",
    "C150_power_refuted"
   ],
   "note": "divmod proved for all operands; refuted for powers with an infinite or not-a-number operand: 2.0 ** inf gives 1.0, 2.0 ** nan gives 1.0, (-inf) ** 2.0 gives -inf."
  },
  {
   "property": "C151",
   "status": "partial",
   "theorems": [
    "C151_int_proved",
    "C151_floor_partial",
    "C151_floor_refuted",
    "C151_is_integer_partial",
    "C151_is_integer_refuted",
    "C151_abs_partial",
    "C151_abs_refuted",
    "C151_digits_partial",
    "C151_digits_refuted"
   ],
   "note": "int and round without digits proved; math.floor, ceil and trunc give the right number but as a float (refuted as ints); is_integer fails on infinities; abs keeps the negative zero; round(1.115, 2) is 1.12 and round(1.5e308, 2) is infinite."
  },
  {
   "property": "C152",
   "status": "partial",
   "theorems": [
    "C152_zero_nan_partial",
    "C152_exact_partial",
    "C152_mod_refuted",
    "C152_floordiv_refuted"
   ],
   "note": "Right for exact quotients and small remainders; refuted: 5.0 % 3.0 is -1.0 (IEEE remainder of the solver), -6.0 % -3.0 is -3.0, 1.0 // 0.1 is 10.0, inf // 2.0 is inf, -1.0 // inf is -0.0."
  },
  {
   "property": "C153",
   "status": "partial",
   "theorems": [
    "C153_pre_partial",
    "C153_post_partial",
    "C153_invariant_partial",
    "C153_always_post",
    "C153_args_refuted",
    "C153_snapshot_refuted",
    "C153_names_refuted",
    "C153_default_refuted",
    "C153_invariant_refuted"
   ],
   "note": "Proved for conditions without the special names; refuted: _ARGS and _KWARGS, snapshots of the program's state (taken after the call), parameters called _ or like the function, defaults overridden by globals, invariants without self."
  },
  {
   "property": "C154",
   "status": "partial",
   "theorems": [
    "C154_construct_partial",
    "C154_metaclass_refuted",
    "C154_init_refuted"
   ],
   "note": "Proved for classes whose metaclass has no __call__ and whose __init__ returns None; refuted: metaclasses with __call__ (singletons, enums) are bypassed, a value returned by __init__ is ignored, an own attribute __init__ is called."
  },
  {
   "property": "C155",
   "status": "partial",
   "theorems": [
    "C155_function",
    "C155_method_partial",
    "C155_others",
    "C155_super_refuted"
   ],
   "note": "Proved when the object's class finds the called function under its name; refuted for super().method(), which is checked with the contract of the derived class."
  },
  {
   "property": "C156",
   "status": "partial",
   "theorems": [
    "C156_coverage_safe",
    "C156_bias_partial",
    "C156_discovery",
    "C156_id_refuted"
   ],
   "note": "The bias is proved if no two objects that held different conditions had the same id(). It is refuted otherwise: internalize remembers id(expr) of objects that it does not keep alive, so that a new condition can be taken for an old one and be biased."
  },
  {
   "property": "C157",
   "status": "proved",
   "theorems": [
    "C157_answers",
    "C157_rotation",
    "C157_preferences",
    "C157_breadth"
   ],
   "note": "All compositions and histories; is_possible is a parameter assumed to be right for the claim about preferences."
  },
  {
   "property": "C158",
   "status": "partial",
   "theorems": [
    "C158_reported_partial",
    "C158_reported_refuted",
    "C158_blame_partial",
    "C158_blame_refuted",
    "C158_allowed"
   ],
   "note": "Reported unless it is a TypeError with one of six texts and none of three others (exactly). Refuted: a __hash__ that returns a string, re.match on a number and errors about user classes named like symbolic ones go unreported; messages that name any symbolic class but int, float, str and bytes are reported as errors of the program."
  },
  {
   "property": "C159",
   "status": "partial",
   "theorems": [
    "C159_variable",
    "C159_path",
    "C159_modules_partial",
    "C159_hooks_partial",
    "C159_hooks_refuted",
    "C159_modules_refuted",
    "C159_appended_refuted",
    "C159_reads_partial",
    "C159_reads_refuted"
   ],
   "note": "Proved for every program: scoped variables are restored; the import path is after a block what it was before; sys.modules is restored where the alternatives load; hooks are restored if no exception arises inside a block of pure imports; reads give the innermost value if no block binds None. Refuted otherwise: prefer_pure_python_imports has no finally, so an exception leaves every hook wrapped once more; imported_alternative reloads before its try, so a failing reload leaves the suppressed modules unimportable; what a module appends to sys.path during its import is dropped; a block binding None is taken for no block. The import system itself is not modelled."
  },
  {
   "property": "C16",
   "status": "partial",
   "theorems": [
    "C16_order_partial",
    "C16_popitem_partial",
    "C16_copy_partial",
    "C16_update_order_refuted",
    "C16_reinsert_order_refuted",
    "C16_reversed_refuted",
    "C16_popitem_refuted",
    "C16_copy_len_refuted",
    "C16_ror_refuted"
   ],
   "note": "Order agrees with a dict while only new keys are added; the code violates the full property: updating an initial key moves it, reversed() repeats it, popitem takes it, reinsertion keeps the old place, a copy reports a stale length, and d | m prefers the left operand."
  },
  {
   "property": "C160",
   "status": "partial",
   "theorems": [
    "C160_same_messages",
    "C160_context",
    "C160_intro",
    "C160_text",
    "C160_parts",
    "C160_call_refuted"
   ],
   "note": "Proved for all messages and files: the same messages, the same status, the context and the parts of a report; the message differs from its text only in line breaks for spaces. Refuted: the replacement of ' when ' also hits string literals in the counterexample, so a call with an argument containing it is printed broken. How numbers are written is a parameter."
  },
  {
   "property": "C161",
   "status": "partial",
   "theorems": [
    "C161_search_partial",
    "C161_diff_partial",
    "C161_status_refuted",
    "C161_cover_partial",
    "C161_cover_status",
    "C161_cover_lost_refuted"
   ],
   "note": "Proved for targets that load or fail to import. Refuted otherwise: checked_fn_load handles only import errors, so a name that is not found and a directory without Python files end in an uncaught exception, with the status for 'no input' or 'the functions differ'; cover in pytest format discards the tests of all functions covered so far when a later function is not deterministic. Analyses and loading are parameters."
  },
  {
   "property": "C162",
   "status": "partial",
   "theorems": [
    "C162_history_partial",
    "C162_core",
    "C162_absent",
    "C162_popitem",
    "C162_refuted"
   ],
   "note": "Proved for every history in which keys looked up other than by d[k] are there (or there is no factory) and items are popped from at most one: same results, same entries in the same order, same calls of the factory. Refuted otherwise, for every dictionary with a factory: 'in' is true for a missing key and stores it, get and setdefault ignore their default, pop does not raise; popitem takes the first item instead of the last. The methods copy, fromkeys, | and reversed, which the stand-in lacks, are not modelled."
  },
  {
   "property": "C163",
   "status": "partial",
   "theorems": [
    "C163_encodable_partial",
    "C163_last_partial",
    "C163_strict",
    "C163_blocked",
    "C163_late_refuted",
    "C163_lost_refuted",
    "C163_stream_refuted"
   ],
   "note": "Proved for texts that can be encoded, in any pieces, and for one final piece whose last character cannot; with the strict handler no error is lost and the calls together give what encoding at once gives. Refuted otherwise: an error is not raised by the piece that has it and blocks all output until the final call, text after the first replaced character is lost, and stream readers and writers always raise. Handlers are per character."
  },
  {
   "property": "C164",
   "status": "partial",
   "theorems": [
    "C164_case_predicates",
    "C164_predicates",
    "C164_upper_casefold",
    "C164_lower_exact",
    "C164_conversions_partial",
    "C164_sigma_refuted",
    "C164_translate_partial",
    "C164_translate_refuted"
   ],
   "note": "Predicates, upper and casefold proved for all strings; lower is right for exactly the strings without a word-final capital sigma (title, swapcase, capitalize right for these, refuted otherwise); translate refuted for integers beyond a C int. Facts about the Unicode database are hypotheses (record sane), checked outside the proofs for every code point with CPython."
  },
  {
   "property": "C165",
   "status": "partial",
   "theorems": [
    "C165_text_partial",
    "C165_acyclic",
    "C165_cycle_no_text",
    "C165_ellipsis_refuted",
    "C165_derived_refuted"
   ],
   "note": "Every text given is Python's, except for derived sets (class name lost, refuted) and one-item tuples (C39); there is a text for every acyclic object and none for any cyclic one (refuted: Python prints an ellipsis, here the recursion limit is hit)."
  },
  {
   "property": "C166",
   "status": "partial",
   "theorems": [
    "C166_input_partial",
    "C166_arguments_partial",
    "C166_typed_dict_refuted",
    "C166_length_refuted",
    "C166_arguments_refuted"
   ],
   "note": "Proved for all nestings of types in which no key of a TypedDict continues another key and for parameter names without underscore. Refuted otherwise: a TypedDict with keys start (a time) and start_hour (an int) has one solver variable for both, so values of start_hour above 23 are never tried; likewise data and datalen, and parameters x and x_2_at."
  },
  {
   "property": "C167",
   "status": "partial",
   "theorems": [
    "C167_integers",
    "C167_call",
    "C167_numeric_partial",
    "C167_real_refuted",
    "C167_default_refuted"
   ],
   "note": "decimal and digit proved for every string and table, numeric when floats are doubles for tables of whole doubles and the fractions of Unicode. Refuted: with floats as reals the value of a character such as one third differs from Python's; with a default argument every call is a TypeError."
  },
  {
   "property": "C168",
   "status": "partial",
   "theorems": [
    "C168_build",
    "C168_printed_partial",
    "C168_printed_refuted",
    "C168_printed_fails_refuted"
   ],
   "note": "Making inputs proved for all constructors; the printed call makes the object again if constructors do not change their arguments. Refuted otherwise: the arguments are printed as the constructor left them. Generic classes, TypedDicts and the text itself are elsewhere."
  },
  {
   "property": "C169",
   "status": "partial",
   "theorems": [
    "C169_enum_partial",
    "C169_ignored",
    "C169_flag_sound",
    "C169_flag_exact",
    "C169_flag_refuted"
   ],
   "note": "Proved for enums; of a Flag exactly the members of one bit are chosen. Refuted for Flag: combinations of members, and the empty one, never are chosen, so a condition that fails only for them is confirmed."
  },
  {
   "property": "C17",
   "status": "partial",
   "theorems": [
    "C17_history",
    "C17_equality",
    "C17_nan_refuted"
   ],
   "note": "Full for keys equal to themselves; a key that is not (nan) is inserted twice by repeated assignment."
  },
  {
   "property": "C170",
   "status": "partial",
   "theorems": [
    "C170_len_partial",
    "C170_len_missing",
    "C170_text_partial",
    "C170_hash_partial",
    "C170_result_refuted",
    "C170_hash_refuted",
    "C170_binding_refuted",
    "C170_instance_refuted"
   ],
   "note": "Proved for methods that are functions (for len, of any kind in the class) and return a proper result or raise. Refuted: results are not checked, hashes of -1 and of more than 64 bits are not changed as Python does, static and class methods are not bound, len takes methods of instances."
  },
  {
   "property": "C171",
   "status": "partial",
   "theorems": [
    "C171_get",
    "C171_forks",
    "C171_set_partial",
    "C171_set_refuted"
   ],
   "note": "getattr, hasattr and their forks proved; setattr proved for native names and refuted for symbolic ones, for which it raises TypeError."
  },
  {
   "property": "C172",
   "status": "partial",
   "theorems": [
    "C172_contents_partial",
    "C172_list_refuted",
    "C172_tobytes_refuted",
    "C172_view_refuted"
   ],
   "note": "Proved for all programs that make bytearrays from bytes and bytearrays only and do not use tobytes: every object has Python's contents after any history and errors are the same. Refuted for bytearray(list), bytearray(memoryview) and memoryview.tobytes(), which keep the sequence they were given."
  },
  {
   "property": "C173",
   "status": "partial",
   "theorems": [
    "C173_complete",
    "C173_sound_partial",
    "C173_sound_refuted",
    "C173_negative_zero_refuted"
   ],
   "note": "Complete for all nested types on paths where floats are doubles. Sound if the reals the solver gives are doubles; refuted otherwise: where floats are modelled as reals (the usual choice) a third is met, and -0.0 is not. Items of uniform tuples are modelled as made one by one; dictionaries whose keys the solver holds itself are C106-C108."
  },
  {
   "property": "C174",
   "status": "partial",
   "theorems": [
    "C174_near_partial",
    "C174_exact_partial",
    "C174_next_refuted",
    "C174_inherited_refuted",
    "C174_classmethod_refuted"
   ],
   "note": "Proved: what is found has the line or ends on the line before it, and exactly the functions that have the line are found if none ends on the line before and there are no inherited methods and classmethods. Refuted: the line of a def that directly follows another function finds that one; an inherited method gives KeyError if the derived class comes first by name; classmethods are not found."
  },
  {
   "property": "C175",
   "status": "partial",
   "theorems": [
    "C175_project_partial",
    "C175_same_name_refuted",
    "C175_loaded_refuted",
    "C175_link_refuted"
   ],
   "note": "Proved for any sequence of files of one project whose top-level names are not those of modules loaded before. Refuted: the second of two files with the same name in two directories, and a file with the name of a loaded module, give the module in sys.modules; a symbolic link with another name is not found."
  },
  {
   "property": "C176",
   "status": "partial",
   "theorems": [
    "C176_realized_partial",
    "C176_checked_partial",
    "C176_symbolic_partial",
    "C176_subclass_refuted",
    "C176_tuple_refuted"
   ],
   "note": "Proved for symbolic objects of just the class and native ones of any subclass, with arguments that are not tuples of symbolic values. Refuted: int.bit_length of a symbolic bool, and endswith of an ordinary string with a tuple of a symbolic string, are TypeErrors. What methods compute is a parameter; the methods are other properties."
  },
  {
   "property": "C177",
   "status": "partial",
   "theorems": [
    "C177_form",
    "C177_scopes_partial",
    "C177_outdented_refuted",
    "C177_trailing_refuted"
   ],
   "note": "Proved for files whose comments start at the first column exactly when they are at the top level; what the scopes' directives mean and how they are combined is C33. Refuted otherwise: a comment at the first column inside a function holds for the whole module, and one behind a statement at the top level is ignored. Not modelled: source that tokenize cannot read."
  },
  {
   "property": "C178",
   "status": "partial",
   "theorems": [
    "C178_names_partial",
    "C178_exception_refuted",
    "C178_clash_refuted",
    "C178_hidden_refuted",
    "C178_test_refuted"
   ],
   "note": "Proved when references that begin alike are in one module, none begins with pytest or the name of a test, and exceptions are builtins or referenced elsewhere. Refuted otherwise: the program's own exception classes are not imported, of two classes with one name in different modules one stands for the other, types like NoneType have no name in builtins, and a test hides a function with the test's name."
  },
  {
   "property": "C179",
   "status": "proved",
   "theorems": [
    "C179_operands",
    "C179_digitwise",
    "C179_invert"
   ],
   "note": ""
  },
  {
   "property": "C18",
   "status": "proved",
   "theorems": [
    "C18_combination",
    "C18_unique",
    "C18_comparisons"
   ],
   "note": "Membership, iteration, len, truth and comparisons of any nesting of lazy set combinations."
  },
  {
   "property": "C180",
   "status": "proved",
   "theorems": [
    "C180_separators"
   ],
   "note": "For groupings as localeconv gives them: empty, or positive lengths below CHAR_MAX that end with 0 or CHAR_MAX."
  },
  {
   "property": "C181",
   "status": "proved",
   "theorems": [
    "C181_format"
   ],
   "note": "For numbers with integer digits, groupings as localeconv gives them, and an exponent only with the types e, E, g and G, as Decimal.__format__ calls it."
  },
  {
   "property": "C182",
   "status": "proved",
   "theorems": [
    "C182_strftime"
   ],
   "note": "Flags and widths of the C library between the per cent sign and the letter are not modelled; neither is %:z, which Python 3.12 added and this code leaves to the C library."
  },
  {
   "property": "C183",
   "status": "proved",
   "theorems": [
    "C183_exact",
    "C183_others"
   ],
   "note": "Given that as_integer_ratio gives the ratio in lowest terms, which for symbolic floats is part of C149."
  },
  {
   "property": "C184",
   "status": "proved",
   "theorems": [
    "C184_rotate",
    "C184_shift",
    "C184_others"
   ],
   "note": "NaN operands leave by the check that is modelled with the other decimal operations. An integral number of places is one with exponent zero, as the decimal specification asks."
  },
  {
   "property": "C19",
   "status": "partial",
   "theorems": [
    "C19_history_partial",
    "C19_difference_partial",
    "C19_difference_alias_refuted",
    "C19_difference_cycle_refuted",
    "C19_union_self_refuted"
   ],
   "note": "All histories on any number of sets except s - t with a mutable t (which keeps a reference to t: later changes of t show, and it can become cyclic) and union() without arguments (returns the set itself); both are violations of the full property by the code."
  },
  {
   "property": "C20",
   "status": "proved",
   "theorems": [
    "C20_divmod",
    "C20_divmod_unique",
    "C20_lshift",
    "C20_rshift",
    "C20_and",
    "C20_invert",
    "C20_abs",
    "C20_bit_count",
    "C20_bit_length",
    "C20_round",
    "C20_round_unique",
    "C20_str",
    "C20_symbolic_str",
    "C20_str_unique"
   ],
   "note": ""
  },
  {
   "property": "C21",
   "status": "partial",
   "theorems": [
    "C21_pow_partial",
    "C21_pow_refuted",
    "C21_pow_wrong_domain"
   ],
   "note": "Holds for non-negative exponents and base 0. The code violates it for a non-zero base with a negative exponent: it returns an int where Python returns a float."
  },
  {
   "property": "C22",
   "status": "partial",
   "theorems": [
    "C22_to_bytes_partial",
    "C22_from_bytes",
    "C22_roundtrip",
    "C22_roundtrip_back",
    "C22_signed_zero_length_refuted",
    "C22_negative_length_refuted",
    "C22_byteorder_refuted"
   ],
   "note": "Holds except where the code violates it: signed with length 0 (OverflowError for 0), negative lengths (no ValueError), byte orders other than big/little (no ValueError)."
  },
  {
   "property": "C23",
   "status": "proved",
   "theorems": [
    "C23_bounded_int"
   ],
   "note": ""
  },
  {
   "property": "C24",
   "status": "proved",
   "theorems": [
    "C24_init",
    "C24_range_unique",
    "C24_range_exists",
    "C24_len",
    "C24_bool",
    "C24_iter",
    "C24_reversed",
    "C24_getitem",
    "C24_contains",
    "C24_index",
    "C24_count",
    "C24_eq",
    "C24_list_eqb"
   ],
   "note": "Slicing realizes the range and uses CPython's own slicing, so it is not modelled; non-int members are not modelled."
  },
  {
   "property": "C25",
   "status": "partial",
   "theorems": [
    "C25_find_partial",
    "C25_find_empty_partial",
    "C25_find_refuted",
    "C25_startswith",
    "C25_endswith",
    "C25_contains",
    "C25_count_partial",
    "C25_count_refuted"
   ],
   "note": "startswith, endswith (with tuples) and `in` are proved for all bounds. find/rfind/index/rindex are proved when start and end are at least -len(s); below that the code searches the wrong window (refuted). count is proved except for the empty string in a window that starts after its end, where the code says 1 and CPython 0 (refuted)."
  },
  {
   "property": "C26",
   "status": "partial",
   "theorems": [
    "C26_partition",
    "C26_rpartition",
    "C26_replace",
    "C26_split",
    "C26_rsplit",
    "C26_split_unique",
    "C26_split_ws_partial",
    "C26_split_ws_refuted",
    "C26_rsplit_ws_partial",
    "C26_rsplit_ws_refuted",
    "C26_join",
    "C26_removeprefix",
    "C26_removesuffix"
   ],
   "note": "Everything is proved for all inputs except split/rsplit on whitespace with a positive maxsplit that is reached: the code strips the far end of the string, CPython does not (refuted)."
  },
  {
   "property": "C27",
   "status": "partial",
   "theorems": [
    "C27_pad",
    "C27_strip",
    "C27_splitlines",
    "C27_expandtabs_partial",
    "C27_expandtabs_refuted"
   ],
   "note": "Everything is proved for all inputs except expandtabs, which ignores the column of a tab (refuted; proved when every tab is at a multiple of the tab size). Whitespace and line-boundary tables are parameters."
  },
  {
   "property": "C28",
   "status": "partial",
   "theorems": [
    "C28_hex",
    "C28_fromhex",
    "C28_roundtrip",
    "C28_hex_sep_partial",
    "C28_hex_sep_refuted"
   ],
   "note": "hex(), fromhex() and the round trip are proved for all bytes, also with a whitespace separator. hex(sep, n) is proved for n <= 0 and when n divides twice the length; otherwise the groups are misplaced (refuted)."
  },
  {
   "property": "C29",
   "status": "partial",
   "theorems": [
    "C29_encode_partial",
    "C29_encode_refuted",
    "C29_roundtrip",
    "C29_decode_partial",
    "C29_decode_refuted",
    "C29_ignore_partial",
    "C29_ignore_refuted",
    "C29_replace_partial",
    "C29_replace_refuted",
    "C29_error_end_refuted"
   ],
   "note": "Encoding, the round trip and strict decoding (acceptance, result and error position) are proved for all inputs apart from surrogates, which the code accepts both ways (refuted). errors=ignore equals the standard up to surrogates; errors=replace emits one U+FFFD per byte instead of per ill-formed sequence (refuted)."
  },
  {
   "property": "C30",
   "status": "partial",
   "theorems": [
    "C30_encode",
    "C30_encode_standard",
    "C30_alphabet_length",
    "C30_wrap",
    "C30_roundtrip",
    "C30_decode_partial",
    "C30_decode_refuted",
    "C30_decode_strict_partial",
    "C30_decode_strict_refuted"
   ],
   "note": "Encoding, wrapping and the round trip proved for all data and alphabets. Decoding equals binascii except that data after padding is rejected in non-strict mode and input of only pad characters is accepted in strict mode (both refuted). Options canonical and ignorechars, which call the real function, are not modelled."
  },
  {
   "property": "C31",
   "status": "partial",
   "theorems": [
    "C31_format_partial",
    "C31_format_simple",
    "C31_format_refuted",
    "C31_pack_partial",
    "C31_unpack_partial",
    "C31_roundtrip",
    "C31_unpack_from_partial",
    "C31_pack_into_partial",
    "C31_iter_unpack_partial",
    "C31_native_order_refuted",
    "C31_bool_refuted",
    "C31_unpack_refuted",
    "C31_unpack_from_refuted",
    "C31_pack_into_refuted",
    "C31_iter_unpack_refuted",
    "C31_iter_empty_refuted"
   ],
   "note": "Format parsing, pack, unpack, unpack_from, pack_into and iter_unpack for padding, char, bool and all integer codes with explicit byte order are exactly what the struct documentation says, for all formats, arguments and buffers; round trip for every prefix. The code departs from struct on native prefixes (read as big-endian), numbers for '?', over-long buffers, offsets out of range, partial or empty records and empty formats: refuted with witnesses. String, float and pointer codes are handed to the real struct module and are parameters."
  },
  {
   "property": "C32",
   "status": "proved",
   "theorems": [
    "C32_covers",
    "C32_smt_matches",
    "C32_add",
    "C32_invert",
    "C32_union",
    "C32_intersect",
    "C32_subtract",
    "C32_unique",
    "C32_predicate_mask",
    "C32_domain_mask",
    "C32_make_mask",
    "C32_category_mask",
    "C32_unicode_mask"
   ],
   "note": "All mask operations denote the sets they name for every mask meeting the class invariant and every value of sys.maxunicode, keep the invariant, and are canonical; masks computed from predicates, function domains and the category table hold exactly the right code points."
  },
  {
   "property": "C33",
   "status": "partial",
   "theorems": [
    "C33_overlay",
    "C33_effective",
    "C33_problem",
    "C33_directives",
    "C33_on_off",
    "C33_no_value",
    "C33_command_line",
    "C33_max_uninteresting",
    "C33_per_path_timeout",
    "C33_bool",
    "C33_split_sum",
    "C33_split_bounds_partial",
    "C33_split_bounds_refuted",
    "C33_split_half",
    "C33_split_timeout_partial",
    "C33_split_timeout_refuted"
   ],
   "note": "Overlay, directives and default limits proved. Splitting limits: proved below 2^53 iterations and for finite timeouts in exact binary64 rounding; refuted for sys.maxsize at priority 1.0 (2^63 and -1) and for an infinite timeout at priority 0 (NaN)."
  },
  {
   "property": "C34",
   "status": "proved",
   "theorems": [
    "C34_minimise",
    "C34_example_has_score"
   ],
   "note": "Bisection over every path. The solver is a parameter that decides satisfiability of an interval of scores."
  },
  {
   "property": "C35",
   "status": "partial",
   "theorems": [
    "C35_history_partial",
    "C35_bounded_partial",
    "C35_defaultdict",
    "C35_bound_refuted",
    "C35_zero_refuted",
    "C35_count_refuted",
    "C35_maxlen_refuted"
   ],
   "note": "Every history of calls on unbounded deques proved (items equal to themselves), and bounded deques for calls that need not drop items. Refuted: extend/extendleft/insert/* ignore maxlen; append with maxlen 0 raises; count misses items not equal to themselves; maxlen is a method. Not modelled: missing reflected * and ordering operators, and the error for mutation during iteration."
  },
  {
   "property": "C36",
   "status": "partial",
   "theorems": [
    "C36_items",
    "C36_getitem",
    "C36_slice_partial",
    "C36_slice_refuted",
    "C36_index",
    "C36_contains",
    "C36_mul",
    "C36_order",
    "C36_eq",
    "C36_eq_arrays_partial",
    "C36_eq_arrays_refuted"
   ],
   "note": "Slices with a step other than 1 ignore the step (refuted with concrete slices); equality of two array-backed tuples compares the arrays beyond the length (refuted). Everything else agrees with tuple semantics."
  },
  {
   "property": "C37",
   "status": "partial",
   "theorems": [
    "C37_history_partial",
    "C37_longer_refuted",
    "C37_backwards_refuted",
    "C37_ranges",
    "C37_range_constraint"
   ],
   "note": "Every access agrees with one fixed tuple for all histories, except that a comparison with a longer sequence lets items beyond the end show up later, and backward slices with a positive stop see only the items created so far; both refuted with concrete histories."
  },
  {
   "property": "C38",
   "status": "partial",
   "theorems": [
    "C38_int_partial",
    "C38_base_refuted",
    "C38_limit_refuted",
    "C38_float_partial"
   ],
   "note": "int() agrees with CPython except that the base is ignored whenever some character is not an ASCII digit below the base (int('9', 8) is 9), and CPython's 4300 digit limit is not applied. float() of plain decimals is exact (rounding not modelled)."
  },
  {
   "property": "C39",
   "status": "partial",
   "theorems": [
    "C39_index_partial",
    "C39_index_refuted",
    "C39_identity_refuted",
    "C39_join",
    "C39_list_repr",
    "C39_dict_repr",
    "C39_tuple_repr_partial",
    "C39_tuple_repr_refuted"
   ],
   "note": "index agrees with CPython for start 0 and items equal to themselves; with a start it is relative to the slice (refuted). Reprs and join proved; the repr of a one-item tuple lacks its comma (refuted)."
  },
  {
   "property": "C40",
   "status": "partial",
   "theorems": [
    "C40_replay",
    "C40_copies_agree",
    "C40_range_partial",
    "C40_range_refuted",
    "C40_mixed",
    "C40_randrange_pre",
    "C40_randrange_partial",
    "C40_randrange_refuted",
    "C40_contracts"
   ],
   "note": "Replay is proved for all histories. Answers are in range when copies make the same calls at the same positions; otherwise refuted (random() can be 1.0). The randrange contract is exact for positive steps and unsatisfiable for negative ones (refuted)."
  },
  {
   "property": "C41",
   "status": "partial",
   "theorems": [
    "C41_meaning_partial",
    "C41_not_reentered_partial",
    "C41_precondition_partial",
    "C41_off",
    "C41_uncompiled_refuted",
    "C41_mutable_refuted"
   ],
   "note": "Enforcement means exactly the natural semantics of contracts for programs with arbitrary nesting, exceptions and state, for contracts whose preconditions compile and whose mutable arguments exist. Otherwise refuted: a precondition that does not compile makes calls raise TypeError; an unknown mutable argument gives PostconditionFailed before anything runs."
  },
  {
   "property": "C42",
   "status": "partial",
   "theorems": [
    "C42_gcd_partial",
    "C42_gcd_refuted",
    "C42_copysign_partial",
    "C42_copysign_refuted",
    "C42_predicates"
   ],
   "note": "gcd proved for up to two arguments; three or more raise TypeError (refuted). copysign has the right value but not always the float type or the sign of zero (refuted)."
  },
  {
   "property": "C43",
   "status": "partial",
   "theorems": [
    "C43_slice_value_partial",
    "C43_slice_independent_refuted"
   ],
   "note": "The slice has the right value when taken, but aliases the list: the code violates independence."
  },
  {
   "property": "C44",
   "status": "partial",
   "theorems": [
    "C44_extend_partial",
    "C44_extend_refuted"
   ],
   "note": "Holds for sequences; the code keeps an iterator as part of the list, so len() raises TypeError."
  },
  {
   "property": "C45",
   "status": "partial",
   "theorems": [
    "C45_imul_value_partial",
    "C45_imul_in_place_refuted"
   ],
   "note": "The value is right, but a new object is returned."
  },
  {
   "property": "C46",
   "status": "partial",
   "theorems": [
    "C46_setitem_partial",
    "C46_setslice_partial",
    "C46_write_refuted"
   ],
   "note": "Holds for in-range indices and slices with non-negative start; violated for indices past the view, negative starts and absent bounds."
  },
  {
   "property": "C47",
   "status": "proved",
   "theorems": [
    "C47_order"
   ],
   "note": "All four operators, all pairs of strings."
  },
  {
   "property": "C48",
   "status": "proved",
   "theorems": [
    "C48_case",
    "C48_strip"
   ],
   "note": "All bytes, all strip sets."
  },
  {
   "property": "C49",
   "status": "partial",
   "theorems": [
    "C49_history",
    "C49_constructor_partial",
    "C49_constructor_refuted"
   ],
   "note": "All histories proved. bytearray(list) and bytes(list with symbolic ints) store values unchecked (refuted)."
  },
  {
   "property": "C50",
   "status": "partial",
   "theorems": [
    "C50_incremental_partial",
    "C50_incremental_refuted",
    "C50_incremental_final_refuted"
   ],
   "note": "No data is lost or invented for any chunking; but each call decodes at most one character, a final call leaves bytes and truncated ends unreported, and empty input raises IndexError (refuted)."
  },
  {
   "property": "C51",
   "status": "proved",
   "theorems": [
    "C51_strict",
    "C51_handlers"
   ],
   "note": "All inputs; handlers are any that answer per character."
  },
  {
   "property": "C52",
   "status": "partial",
   "theorems": [
    "C52_sequence_partial",
    "C52_float_refuted",
    "C52_dict",
    "C52_dict_unique"
   ],
   "note": "Proved for ints on sequences and all numbers on dicts. A symbolic float index on a list returns an element where CPython raises TypeError (refuted)."
  },
  {
   "property": "C53",
   "status": "partial",
   "theorems": [
    "C53_all_partial",
    "C53_any_partial",
    "C53_raises_refuted",
    "C53_any_raises_refuted",
    "C53_consumed_refuted"
   ],
   "note": "Result and __bool__ exceptions proved when the iterator itself does not raise. An iterator that raises after a deciding symbolic item, and the number of items taken, are refuted."
  },
  {
   "property": "C54",
   "status": "proved",
   "theorems": [
    "dates_follow_the_calendar",
    "ordinals_count_days"
   ],
   "note": "Specification: the n-th day is n-1 steps of next_day from 0001-01-01; relational spec of each call over the list of day numbers, shown to be deterministic. Out of scope: string formatting, hashing, pickling, arguments outside the C int range (where CPython raises OverflowError and the code ValueError)."
  },
  {
   "property": "C55",
   "status": "proved",
   "theorems": [
    "symbolic_dates_are_all_dates",
    "ordinals_count_days"
   ],
   "note": "The bridge constraint is modelled as the conjunction of the range, bridge and day-of-month constraints added to the solver."
  },
  {
   "property": "C56",
   "status": "partial",
   "theorems": [
    "timedelta_construction",
    "timedelta_operations_partial",
    "timedelta_subtraction_refuted",
    "timedelta_division_refuted",
    "timedelta_minus_date_refuted",
    "timedelta_scaling",
    "rounding_is_unique",
    "symbolic_timedeltas_are_all_timedeltas"
   ],
   "note": "Full for timedeltas made under analysis. Fails for a timedelta made before the analysis as left operand of -, //, %, divmod (refuted), and timedelta - date gives a date instead of TypeError (refuted). Float factors are rationals."
  },
  {
   "property": "C57",
   "status": "proved",
   "theorems": [
    "datetimes_are_moments",
    "datetime_plus_timedelta",
    "astimezone_keeps_the_instant",
    "utcoffset_is_checked"
   ],
   "note": "Time zones are an arbitrary function from the fields and fold to an offset under 24h. astimezone is proved for target zones with a fixed offset. Hash values are modelled by the tuple hashed."
  },
  {
   "property": "C58",
   "status": "partial",
   "theorems": [
    "date_and_datetime_do_not_compare_partial",
    "date_and_datetime_do_not_compare_refuted"
   ],
   "note": "Proved unless the datetime was made before the analysis; then date.__eq__ and friends compare the days (refuted)."
  },
  {
   "property": "C59",
   "status": "partial",
   "theorems": [
    "times_compare_partial",
    "times_compare_refuted"
   ],
   "note": "Proved for offsets of whole minutes; for others comparison drops the seconds and hashing fails an assertion (refuted)."
  },
  {
   "property": "C60",
   "status": "partial",
   "theorems": [
    "symbolic_datetimes_partial",
    "symbolic_datetimes_refuted",
    "symbolic_times",
    "symbolic_timezones_partial",
    "symbolic_timezones_refuted"
   ],
   "note": "No datetime with fold=1 is generated (the fold is chosen but dropped), and the two extreme offsets are excluded by strict comparisons (both refuted); everything else is covered."
  },
  {
   "property": "C61",
   "status": "partial",
   "theorems": [
    "isoformat_text",
    "fromisoformat_reads",
    "isoformat_round_trip",
    "fromisoformat_errors_partial",
    "datetime_fromisoformat_refuted",
    "fromisoformat_lenient_refuted",
    "fromisoformat_basic_refuted"
   ],
   "note": "Writing, reading the documented form and the round trip are proved in full. On other strings the code differs from CPython: IndexError for short datetimes, signs/spaces/underscores accepted, an empty time accepted, and the further ISO forms of 3.11 refused (refuted with concrete strings)."
  },
  {
   "property": "C62",
   "status": "partial",
   "theorems": [
    "C62_wall_partial",
    "C62_no_side_effects",
    "C62_default_refuses",
    "C62_everything",
    "C62_narrow_allow_refuted",
    "C62_narrow_reject_refuted",
    "C62_engage_later_refuted"
   ],
   "note": "Proved for all programs, with rules narrowed by arguments only where the default agrees. Refuted outside of that: --unblock os.listdir:/tmp blocks other os.listdir calls that are allowed by default; a reject rule os.system:rm lets other os.system calls pass; engage_auditwall after enabled_auditwall leaves the wall off. Which C calls raise audit events is CPython's business and not modelled."
  },
  {
   "property": "C63",
   "status": "partial",
   "theorems": [
    "C63_proposal_partial",
    "C63_tokens",
    "C63_other_events",
    "C63_proposal_refuted"
   ],
   "note": "Proved when the arguments in the rule have no colon. Refuted for arguments with a colon (URLs, Windows paths): the proposed rule does not allow the operation."
  },
  {
   "property": "C64",
   "status": "partial",
   "theorems": [
    "difference_real_partial",
    "every_difference_found_partial",
    "none_found_means_alike_partial",
    "report_right",
    "difference_real_refuted",
    "exhausted_means_alike_refuted",
    "passed_over_refuted",
    "iteration_limit_refuted"
   ],
   "note": "Proved if both functions have a behaviour on the input, no path was cut short and the comparison raises nothing. Refuted otherwise: a path cut short (timeout) counts as exhausted, so 'All paths exhausted, functions are likely the same!' is printed of functions that differ; a path whose values cannot be compared or shown is passed over; an input found illegal in one function is shown as a difference ('raises IgnoreAttempt()'); one iteration less than the limit is made."
  },
  {
   "property": "C65",
   "status": "partial",
   "theorems": [
    "example_real_partial",
    "examples_cover_partial",
    "example_real_refuted"
   ],
   "note": "Proved for legal inputs and, for completeness, if no path was cut short. Refuted: an attempt given up as illegal is shown as an example that returns None."
  },
  {
   "property": "C66",
   "status": "partial",
   "theorems": [
    "examples_chosen_greedily",
    "all_paths_shown",
    "differences_chosen_greedily_partial",
    "a_difference_is_shown",
    "ties_refuted",
    "choice_minimal_refuted"
   ],
   "note": "Proved for cover. For diffbehavior everything but the tie-break is proved: the longer of two differences that cover as much is taken, contrary to the docstring. The choice need not be irredundant (refuted)."
  },
  {
   "property": "C67",
   "status": "partial",
   "theorems": [
    "compares_like_python",
    "equal_is_same",
    "same_as_itself",
    "tolerance_exact_partial",
    "iterators_by_contents_partial",
    "same_symmetric_partial",
    "results_compared",
    "iterators_by_contents_refuted",
    "same_symmetric_refuted",
    "same_transitive_refuted"
   ],
   "note": "Proved for values without iterators and without unrealized parts, and for iterators of different types. Refuted: two generators, or two iterators of the same type, always pass for the same; a dictionary with an unrealized value passes for one that lacks the key, in one direction only."
  },
  {
   "property": "C68",
   "status": "partial",
   "theorems": [
    "test_names_distinct_partial",
    "test_numbered",
    "generated_tests_pass_partial",
    "file_names_distinct_refuted",
    "file_names_distinct_refuted2",
    "generated_tests_pass_refuted"
   ],
   "note": "Names are distinct within one function; those of f and f_2, or of A.f and A_f, clash (refuted). A generated test passes if the result consists of numbers, strings and containers; one for a function that returns NaN always fails (refuted)."
  },
  {
   "property": "C69",
   "status": "partial",
   "theorems": [
    "match_agrees_partial",
    "fullmatch_agrees_partial",
    "match_simple_partial",
    "match_dollar_refuted",
    "match_repeat_refuted",
    "match_repeat_empty_refuted",
    "match_lookbehind_refuted",
    "match_lookahead_group_refuted",
    "match_boundary_refuted",
    "match_multiline_refuted",
    "match_endpos_refuted"
   ],
   "note": "Proved for the patterns `supported` describes, among them all `simple` patterns on all strings. The code is wrong otherwise: each condition has a refutation with a concrete pattern and string."
  },
  {
   "property": "C70",
   "status": "partial",
   "theorems": [
    "search_agrees_partial",
    "finditer_agrees_partial",
    "search_end_refuted",
    "search_pos_refuted"
   ],
   "note": "search is proved for supported patterns that do not match the empty string at endpos, where the code never looks; finditer for supported patterns and bounds within the string."
  },
  {
   "property": "C71",
   "status": "partial",
   "theorems": [
    "subn_agrees_partial",
    "subn_empty_refuted",
    "subn_anchor_refuted",
    "subn_position_refuted",
    "subn_count_refuted"
   ],
   "note": "Proved for supported patterns that neither look behind the match nor match the empty string, with replacements that depend on the texts of the groups. The rest is refuted."
  },
  {
   "property": "C72",
   "status": "partial",
   "theorems": [
    "match_group_partial",
    "match_lastindex_partial",
    "match_expand_partial",
    "match_lastindex_refuted",
    "match_groupdict_refuted",
    "match_span_refuted",
    "match_negative_group_refuted",
    "match_expand_refuted"
   ],
   "note": "group and groups, and start, end and span of groups that took part, are proved right; lastindex and expand under conditions; groupdict and the rest are refuted."
  },
  {
   "property": "C73",
   "status": "partial",
   "theorems": [
    "char_class_case",
    "char_class_partial",
    "class_dot_refuted",
    "class_special_refuted",
    "class_other_letter_refuted",
    "class_ascii_literal_refuted",
    "class_ascii_range_refuted",
    "class_range_refuted"
   ],
   "note": "Proved for all patterns without IGNORECASE, and with it for the terms `fine_term` describes; the code is wrong for the others (escaped special characters, letters without case, most ranges), which is refuted. Unicode's tables are parameters with stated facts."
  },
  {
   "property": "C74",
   "status": "partial",
   "theorems": [
    "stringio_partial",
    "stringio_call_partial",
    "newline_sub_symbolic",
    "newline_finditer_symbolic",
    "stringio_read_refuted",
    "stringio_readline_limit_refuted",
    "stringio_readline_tell_refuted",
    "stringio_readline_negative_refuted",
    "stringio_readline_beyond_refuted",
    "stringio_truncate_refuted",
    "stringio_closed_refuted"
   ],
   "note": "Proved for every history without negative sizes, readline limits away from the start, readline beyond the end, and getvalue or newlines after close; each of these is refuted. Also proved: the newline pattern does on symbolic strings what the model takes it to do."
  },
  {
   "property": "C75",
   "status": "partial",
   "theorems": [
    "contract_sources",
    "contract_inherited_partial",
    "mutable_arguments_inherited_partial",
    "implementation_verified_partial",
    "invariants_checked_partial",
    "invariants_public",
    "multiple_inheritance_refuted",
    "new_method_refuted",
    "inherited_method_refuted",
    "displaced_invariant_refuted",
    "stronger_precondition_refuted",
    "second_kind_refuted"
   ],
   "note": "Nothing is invented, for every hierarchy. Postconditions and invariants are inherited under single inheritance. Refuted: with two bases the second one's contract is dropped; superclass invariants are not applied to new methods; a subclass's invariants are not applied to inherited methods without conditions; a precondition in a subclass displaces superclass invariants and may be stronger than the superclass's; invariants of a second contract kind are ignored."
  },
  {
   "property": "C76",
   "status": "partial",
   "theorems": [
    "docstring_contracts_read_back",
    "quoted_docstring_contracts_partial",
    "quoted_docstring_contracts_refuted",
    "misplaced_brackets_are_reported",
    "bracket_names_read_back",
    "docstring_expressions_come_from_their_lines"
   ],
   "note": "Proved for the lines of the docstring; when the opening quotes share a line with the header of an indented section, the indentation is lost and what follows is absorbed into the section, which is refuted. Closing quotes are taken off before the model starts."
  },
  {
   "property": "C77",
   "status": "partial",
   "theorems": [
    "copy_faithful_partial",
    "copy_isolated_partial",
    "realized_concrete_partial",
    "copy_ends_partial",
    "copy_sharing_refuted",
    "realize_cycle_refuted"
   ],
   "note": "Proved for graphs in which no object is reachable from what it is constructed from, and symbolic containers do not contain themselves. Otherwise an object may be copied twice, and realizing does not end: refuted with witnesses. Objects that cannot be copied stay shared when best effort is asked for."
  },
  {
   "property": "C78",
   "status": "partial",
   "theorems": [
    "intersection_covers_partial",
    "intersection_within_partial",
    "intersection_defined_partial",
    "constructor_covers_partial",
    "constructor_of_builtin_covers_partial",
    "constructor_of_one_exact",
    "same_parameters_refuted",
    "receiver_left_refuted",
    "two_variable_refuted",
    "builtin_new_refuted",
    "names_mixed_refuted"
   ],
   "note": "Proved for signatures that use names alike; for constructors, when exactly one of __new__ and __init__ takes variable arguments, or __new__ is built in. Refuted with witnesses otherwise: __new__(cls, x) with __init__(self, x) loses x; when both have **kw an argument named self is asked for; when both have *args there is no signature; a name that is positional-only in one and a keyword in the other is mixed up."
  },
  {
   "property": "C79",
   "status": "proved",
   "theorems": [
    "json_dumps_writes_json",
    "json_round_trip",
    "json_round_trip_dict",
    "json_default_layout",
    "json_dumps_refuses",
    "json_dumps_layout",
    "json_separators"
   ],
   "note": "With ensure_ascii a high surrogate directly followed by a low one is joined on reading, as in CPython: such strings are excluded. Not modelled: default=, cls=, check_circular (values are trees), subclasses of the JSON types, the NaN payload."
  },
  {
   "property": "C80",
   "status": "partial",
   "theorems": [
    "json_loads_reads_json",
    "json_loads_only_json_partial",
    "json_loads_exactly",
    "json_text_unambiguous",
    "json_loads_raises_partial",
    "json_loads_escape_refuted"
   ],
   "note": "Every JSON text is read as its value; conversely proved for texts whose \\u escapes have four hexadecimal digits, and exactly characterized in general. Refuted: \"\\u1_23\" is accepted, and \"\\u-123\" raises a ValueError that is not a JSONDecodeError (CPython's scanner rejects both with JSONDecodeError). Not modelled: object_hook, object_pairs_hook, parse_constant, cls, positions in error messages, the recursion limit."
  },
  {
   "property": "C81",
   "status": "proved",
   "theorems": [
    "json_bytes_encoding",
    "json_loads_bytes",
    "json_loads_bytes_big_mark"
   ],
   "note": "bytes.decode is a parameter that inverts the encoding of the text at hand."
  },
  {
   "property": "C82",
   "status": "partial",
   "theorems": [
    "skip_counterexamples_real_partial",
    "skip_confirmations_real_partial",
    "skip_never_all_ignored_partial",
    "skip_reference_determined",
    "skip_changed_result_refuted",
    "skip_raising_function_refuted",
    "skip_reconcile_raises_refuted",
    "skip_equal_not_same_refuted"
   ],
   "note": "Proved for programs that do not change objects returned to them by calls, and (for confirmations) for skipped functions that return and keep their contracts. Refuted with witnesses otherwise: the result of a skipped call that is changed afterwards is reconciled in its changed state, giving a false counterexample; a function that raises is skipped as if it returned, so all paths are confirmed although the call raises, or the exception raised while reconciling ends the analysis; == between values that differ gives a false counterexample. Not modelled: overloads, type variables, functions that depend on more than their arguments."
  },
  {
   "property": "C83",
   "status": "proved",
   "theorems": [
    "dec_plus",
    "dec_minus",
    "dec_abs",
    "dec_rounded_floor",
    "dec_rounded_ceiling",
    "dec_rounded_nearest",
    "dec_rounded_exact",
    "dec_rounds_unique"
   ],
   "note": "All contexts with prec >= 1 and Emin <= 0 <= Emax. Coefficients are lists of digits; the capitals setting is left out."
  },
  {
   "property": "C84",
   "status": "proved",
   "theorems": [
    "dec_add",
    "dec_sub"
   ],
   "note": "Operands already converted to Decimal; conversion of other types is not modelled."
  },
  {
   "property": "C85",
   "status": "proved",
   "theorems": [
    "dec_mul",
    "dec_fma"
   ],
   "note": ""
  },
  {
   "property": "C86",
   "status": "proved",
   "theorems": [
    "dec_div",
    "dec_div_zero"
   ],
   "note": ""
  },
  {
   "property": "C87",
   "status": "proved",
   "theorems": [
    "dec_divmod",
    "dec_remainder_near"
   ],
   "note": "Finite operands; division by zero and infinities of these operations are in C88 only in part."
  },
  {
   "property": "C88",
   "status": "proved",
   "theorems": [
    "dec_nan_operands",
    "dec_infinities",
    "dec_fma_special"
   ],
   "note": ""
  },
  {
   "property": "C89",
   "status": "proved",
   "theorems": [
    "dec_compare",
    "dec_trichotomy",
    "dec_compare_nan"
   ],
   "note": "Operands that are already decimals; conversion of ints, floats and fractions is not modelled."
  },
  {
   "property": "C90",
   "status": "proved",
   "theorems": [
    "dec_compare_total",
    "dec_total_order",
    "dec_max",
    "dec_min",
    "dec_max_min_one_nan",
    "dec_max_min_nans"
   ],
   "note": "Operands are canonical: no leading zeros in coefficients and payloads."
  },
  {
   "property": "C91",
   "status": "proved",
   "theorems": [
    "dec_quantize",
    "dec_quantize_special",
    "dec_round_places"
   ],
   "note": ""
  },
  {
   "property": "C92",
   "status": "proved",
   "theorems": [
    "dec_int",
    "dec_round_floor_ceil",
    "dec_int_special",
    "dec_to_integral",
    "dec_normalize",
    "dec_unary_special"
   ],
   "note": ""
  },
  {
   "property": "C93",
   "status": "partial",
   "theorems": [
    "dec_next_plus_partial",
    "dec_next_minus_partial",
    "dec_next_infinite",
    "dec_next_nan",
    "dec_next_native_refuted",
    "dec_next_traps_refuted"
   ],
   "note": "Proved for explicit contexts that trap none of Underflow, Subnormal, Inexact, Rounded, Clamped; with Overflow trapped, Overflow may be raised instead when the result is infinite or x is beyond all numbers. Refuted: without an explicit context the interpreter's context lacks the private methods used (AttributeError); the list of ignored flags is never consulted, so a trapped Overflow or Inexact is raised."
  },
  {
   "property": "C94",
   "status": "partial",
   "theorems": [
    "dec_sqrt_partial",
    "dec_sqrt_exact_partial",
    "dec_sqrt_special",
    "dec_sqrt_native_refuted"
   ],
   "note": "Proved for every explicit context. Refuted for the interpreter's own context, which is used when none is passed: it has no _shallow_copy (AttributeError)."
  },
  {
   "property": "C95",
   "status": "partial",
   "theorems": [
    "watch_lists_watched_files",
    "watch_records_watched_files",
    "watch_misses_no_change",
    "watch_no_false_alarm_partial",
    "watch_false_alarm_refuted"
   ],
   "note": "No change is ever missed, for any targets. A change is reported only if there is one when no target lies below another; watching a directory together with a file in it makes every check report a change (watch_false_alarm_refuted), so every pass is abandoned after a second."
  },
  {
   "property": "C96",
   "status": "partial",
   "theorems": [
    "pool_is_bounded",
    "pool_results_in_order",
    "pool_accounts_for_every_file",
    "pass_leaves_nothing_undone",
    "pass_reports_every_result_partial",
    "workers_end_by_deadline",
    "pass_reports_every_result_refuted"
   ],
   "note": "Everything holds for every schedule except that a pass may end with a result still in the queue: a worker that posts and ends between the time-out of the main thread's wait and its next pruning (pass_reports_every_result_refuted). Such a result is reported during the next pass (pass_reports_every_result_partial)."
  },
  {
   "property": "C97",
   "status": "partial",
   "theorems": [
    "pass_can_finish_partial",
    "pass_can_finish_refuted"
   ],
   "note": "Proved for pools of at least one worker. On a machine with one processor the pool has cpu_count() - 1 = 0 workers: no schedule starts a worker, reports anything or ends the pass (pass_can_finish_refuted)."
  },
  {
   "property": "C98",
   "status": "partial",
   "theorems": [
    "watch_order_partial",
    "watch_order_refuted"
   ],
   "note": "Files are taken up in the opposite order: they are submitted most recent first, but the pool pops from the end of its list, so the most recently edited file comes last."
  },
  {
   "property": "C99",
   "status": "partial",
   "theorems": [
    "abandoned_pass_stops_workers_partial",
    "abandoned_pass_drops_work",
    "abandoned_pass_stops_workers_refuted"
   ],
   "note": "Proved when every worker thread already has its process. A thread that has not created its process yet is not stopped (worker.proc is None) and goes on to create it, beside the workers of the next pool."
  }
 ]
}