{"claims": [
 {"property": "C01", "status": "proved", "theorems": ["C01_ids_valid", "C01_assertions_accept_exactly_ids"], "note": "For every position of the counter, including after wrap-around. The assertions on ids accept exactly such ids (and 0 where an error_id is constructed)."},
 {"property": "C02", "status": "proved", "theorems": ["C02_id_period", "C02_ids_distinct", "C02_ids_of_threads_distinct", "C02_ids_of_threads_valid"], "note": "Any threads, any schedule, any start of the counter: two ids handed out at different places differ within a window of 2^30 generations; the period is exact. The atomic += on the counter is one step (sequential consistency of a single atomic)."},
 {"property": "C03", "status": "proved", "theorems": ["C03_current_error_changes", "C03_current_error_is_last_started", "C03_new_error_is_current"], "note": "Any program; schedules of other threads: see C38 (each thread's run depends on others only through the ids it is assigned)."},
 {"property": "C04", "status": "partial", "theorems": ["C04_no_error_id_refuted", "C04_check_without_error_refuted", "C04_check_without_error_is_one", "C04_current_error_without_error_is_one"], "note": "False of the code: make_error_id(0) is the id 1, which converts to true. Proved instead: what is returned is always exactly 1."},
 {"property": "C05", "status": "proved", "theorems": ["C05_monitor_finds_error", "C05_monitor_starts_error", "C05_monitor_keeps_error"], "note": "For programs that do not catch exceptions by hand or unload captured results in between (those change the current error: C03, C26); ids within one period of the counter (C02)."},
 {"property": "C06", "status": "proved", "theorems": ["C06_last_load_wins"], "note": "For any sequence of loads (any ids, any kinds of item) with the last item of type T singled out; [loads] covers new_error(...), error_id::load(...) by eval_loads / eval_new_error. Excluded: accumulating functions for a type no scope handles while a scope collects (see C15)."},
 {"property": "C07", "status": "proved", "theorems": ["C07_unneeded_objects_vanish", "C07_no_error_no_objects"], "note": "Stated as equality of the whole run with and without the load, for values and accumulating functions; deferred functions: C18. A load for a default-initialised error_id is discarded likewise."},
 {"property": "C08", "status": "proved", "theorems": ["C08_inner_scopes_isolated", "C08_scope_body_isolated"], "note": "For every program run inside the scope (by any route), on the pointer machine."},
 {"property": "C09", "status": "proved", "theorems": ["C09_unload_moves_objects", "C09_unhandled_error_carries_objects_out"], "note": "moved states the final contents of every active context exactly. The failure must not be a third-party result with a foreign error code (see C29)."},
 {"property": "C10", "status": "proved", "theorems": ["C10_handled_error_leaves_no_trace"], "note": ""},
 {"property": "C11", "status": "proved", "theorems": ["C11_first_matching_handler", "C11_scope_calls_first_matching_handler"], "note": ""},
 {"property": "C12", "status": "proved", "theorems": ["C12_try_handle_all_handles_all"], "note": ""},
 {"property": "C13", "status": "proved", "theorems": ["C13_success_passes_through", "C13_capture_success_passes_through"], "note": "try_capture_all of a block returning void is excluded (see C15)."},
 {"property": "C14", "status": "proved", "theorems": ["C14_scopes_unwound"], "note": ""},
 {"property": "C15", "status": "partial", "theorems": ["C15_no_assertion_no_dangling_access_partial", "C15_no_assertion_no_dangling_access_refuted", "C15_safe_programs_run", "C15_without_exceptions", "C15_without_exceptions_plain"], "note": "False as stated: three uses of the public API make the library access destroyed objects (assertion failures in debug builds): an accumulating function whose object nobody has storage for, inside a collecting scope whose collection was started by another error; try_capture_all of a void function that succeeds; reuse of a context for handlers that take diagnostic_details after it was unloaded. Each is a witness, and each is the only rule its program breaks. Every program that keeps those three rules and uses valid ids runs without assertion failure or access to a destroyed object, in every configuration. Such programs meet the hypothesis (runs) of the theorems on scopes, handlers and captures (C15_safe_programs_run). In builds without exceptions the same holds for programs without try_catch."},
 {"property": "C16", "status": "proved", "theorems": ["C16_on_error", "C16_on_error_any_program", "C16_not_overwritten", "C16_first_item_wins"], "note": "C16_on_error: programs without plain catch and captured results; C16_on_error_any_program: all programs, in terms of the current error."},
 {"property": "C17", "status": "proved", "theorems": ["C17_accumulate_once", "C17_accumulate_in_order"], "note": ""},
 {"property": "C18", "status": "partial", "theorems": ["C18_deferred_partial", "C18_deferred_refuted"], "note": "Full statement fails: with BOOST_LEAF_CFG_CAPTURE and no scope collecting, load_slot_deferred calls the function although the object is not stored (C18_deferred_refuted). All other cases are proved."},
 {"property": "C19", "status": "proved", "theorems": ["C19_capture_collects", "C19_capture_and_unload", "C19_single_error_captured", "C19_scope_receives"], "note": "Capture gives exactly the collected objects when the collection was started by the reported error; unloading moves exactly these to the contexts serving their types. C19_single_error_captured covers tasks that generate one error, load items for it (values, deferred, accumulated) and return or throw it, in a thread without enclosing scopes."},
 {"property": "C20", "status": "partial", "theorems": ["C20_captured_whole_refuted", "C20_captured_whole_partial"], "note": "False of the code: the collection is keyed by the first error that put an object into it (capture_list/dynamic_allocator as optional keyed by id); if another error is reported, everything collected is lost. Partial: nothing is lost if the first collected object is of the reported error."},
 {"property": "C21", "status": "proved", "theorems": ["C21_objects_first", "C21_recognised_at_every_level"], "note": "Ids are valid ids (mk id = id). The nested scopes are described by the inductive relation escapes."},
 {"property": "C22", "status": "partial", "theorems": ["C22_result_failure_stays_refuted", "C22_result_failure_stays_partial"], "note": "False inside a catch block: std::current_exception() there is the unrelated exception being handled, which is captured and later rethrown. Partial: holds where no exception is being handled."},
 {"property": "C23", "status": "partial", "theorems": ["C23_discriminant", "C23_results_keep_ids", "C23_value_of_failure", "C23_value_of_captured_exception", "C23_error_of_success_refuted"], "note": "value() on the pointer machine: in every state and for captured results too, bad_result carries the id of the result. Every valid (non-zero) id is kept by the discriminant word and by every sequence of constructions, conversions, moves and destructions of result objects. Refuted for the value 0: error() of a successful result converted to another result type gives an error result holding id 0, which is read back as 1."},
 {"property": "C24", "status": "proved", "theorems": ["C24_check_forwards_failure", "C24_check_continues", "C24_check_lets_exceptions_pass", "C24_first_failure_of_a_chain", "C24_chain_without_failure", "C24_failure_through_calls"], "note": ""},
 {"property": "C25", "status": "proved", "theorems": ["C25_exception_recognised_at_every_level", "C25_exception_derived_from_error_id"], "note": "Any nesting of scopes and sequencing; the exception is not handled on the way. Items include accumulated and deferred ones; the object of the last plain item of a type is claimed."},
 {"property": "C26", "status": "proved", "theorems": ["C26_let_go_ends_error", "C26_other_error_current", "C26_examined_left_alone"], "note": ""},
 {"property": "C27", "status": "partial", "theorems": ["C27_foreign_exception_objects_partial", "C27_without_on_error", "C27_objects_of_earlier_errors_refuted"], "note": "False of the code in general: without an on_error in between, a foreign exception is identified by current_error(), possibly an earlier error's id, whose objects still in the scope are passed to handlers (refuted by a concrete program; C27_without_on_error shows which id is used). Proved: if the exception passes at least one on_error (and any further on_errors and scopes that do not handle it), the handlers and diagnostics of the scope examining it see only objects these on_errors produced, whatever happened before. Assumes ids do not repeat and the new id is not 1 (see C49)."},
 {"property": "C28", "status": "proved", "theorems": ["C28_id_to_code_and_back", "C28_zero_code", "C28_foreign_code", "C28_is_error_id", "C28_check_foreign", "C28_check_foreign_other"], "note": ""},
 {"property": "C29", "status": "partial", "theorems": ["C29_handlers_receive_the_code", "C29_unhandled_code_is_passed_on", "C29_leaf_code_is_the_same_error", "C29_objects_of_third_party_failure_refuted"], "note": "The code reaches handlers at every level. That objects of the failure stay with it is true of codes of the LEAF category only; for other categories it is refuted."},
 {"property": "C30", "status": "proved", "theorems": ["C30_never_throws", "C30_value_passes", "C30_exception_becomes_error"], "note": ""},
 {"property": "C31", "status": "proved", "theorems": ["C31_value", "C31_error"], "note": ""},
 {"property": "C32", "status": "proved", "theorems": ["C32_storage_deduced"], "note": ""},
 {"property": "C33", "status": "proved", "theorems": ["C33_index_sequence", "C33_tuple_unpacked"], "note": ""},
 {"property": "C34", "status": "proved", "theorems": ["C34_tls_array"], "note": "The number of types is limited by what the library asserts (one less than the number of places, see ex34_limit)."},
 {"property": "C35", "status": "proved", "theorems": ["C35_predicates", "C35_predicate_argument", "C35_catch", "C35_catch_argument", "C35_category", "C35_codes"], "note": ""},
 {"property": "C36", "status": "proved", "theorems": ["C36_name_extracted_gcc_clang", "C36_name_extracted_msvc_class", "C36_name_extracted_msvc_other", "C36_unrecognised_signatures_are_rejected"], "note": "For the signature formats the library recognises; C36_unrecognised_signatures_are_rejected: exactly the signatures in one of those formats pass the static assertion, and then what is printed is the name and lies within the signature."},
 {"property": "C37", "status": "proved", "theorems": ["C37_diagnostic_info_text", "C37_diagnostic_details_text", "C37_context_text", "C37_captured_result_text", "C37_every_type_has_one_specialization", "C37_result_text", "C37_text_without_diagnostics", "C37_text_without_capture"], "note": "The printed text is modelled character by character, with the title as the in/out parameter it is in the code; user supplied texts (operator<<, what(), type names) are arbitrary. The title of the list is the exception's title if there is one. Streams do not fail. Also for operator<< of contexts and captured results."},
 {"property": "C38", "status": "proved", "theorems": ["C38_threads_do_not_interfere", "C38_ended_stays", "run_depends_on_ids"], "note": "A thread's state is its own by thread_local (modelled as such); what is proved is that, under any schedule of id generations, an ended thread did what it does alone with the same ids, and that it used exactly the ids it was given."},
 {"property": "C39", "status": "proved", "theorems": ["C39_storage_lifetimes", "C39_storage_contents"], "note": "Every sequence of operations of optional<T> over any number of cells, copy constructors throwing anywhere. noexcept members whose move throws terminate (documented in DESIGN.md). Self-assignment empties a cell, it does not access a dead object."},
 {"property": "C40", "status": "partial", "theorems": ["C40_lifetimes_partial", "C40_dereferencing_an_error_asserts", "C40_self_move_refuted"], "note": "All operation sequences on result objects except move assignment of a result to itself when it holds a value or a captured list; that case is false of the code and refuted with a witness. Dereferencing a result that holds an error, in any state reached this way, fails the assertion of operator*."},
 {"property": "C41", "status": "partial", "theorems": ["C41_capture_list_partial", "C41_unload_throws", "C41_throwing_copy_refuted", "C41_reuse_after_unload_refuted"], "note": "Holds for all sequences over any number of lists except two uses, each refuted by a witness: an append whose object's copy constructor throws leaves the freed node linked; appending to a dynamic_allocator that was unloaded writes through a dangling last_."},
 {"property": "C42", "status": "partial", "theorems": ["C42_printed_refuted", "C42_colliding_ids_are_issued", "C42_printed_partial", "C42_results_printed_partial"], "note": "False for exactly one pair: the ids 1 and -3 both print 0. The same for the texts of failed results."},
 {"property": "C43", "status": "partial", "theorems": ["C43_same_behaviour_partial", "C43_programs_that_cannot_throw", "C43_try_catch_refuted"], "note": "NoExcept.v models the other build function by function. Same outcome, storage, current error and observable actions for every program without try_catch, provided the exception-free build does not call boost::throw_exception; and unconditionally for programs which syntactically cannot throw. False for programs using try_catch (C43_try_catch_refuted): with exceptions its context swallows the objects of an error its block returns, without exceptions they reach the enclosing scope."},
 {"property": "C44", "status": "proved", "theorems": ["C44_on_error_moves", "C44_one_id", "C44_generated_ids_are_new"], "note": "For on_error objects that are moved from at most once, as returning and storing them does. Moving again from an already moved-from object gives a second triggering object: example ex44_moved_twice."},
 {"property": "C45", "status": "proved", "theorems": ["C45_handler_error_carries_objects_out"], "note": ""},
 {"property": "C46", "status": "partial", "theorems": ["C46_context_operations_partial", "C46_unload_repeated", "C46_reactivated_refuted", "C09_unload_moves_objects"], "note": "For contexts without diagnostic_details, every sequence of construct/activate/deactivate/unload/load/destroy has exactly the effects of a pointer-free specification (unload moves an object to the innermost active context with a place for its type unless one of the same error is there; repeatable; interleaved with re-activation). False for contexts that collect: unload and re-activation writes to freed memory, re-activation with collected objects cuts off the slot of an enclosing context (witnesses). A single unload of any context: C09_unload_moves_objects."},
 {"property": "C47", "status": "partial", "theorems": ["C47_every_object_available_or_listed_partial", "C47_every_object_available_or_listed_refuted"], "note": "Proved for all chains in which, once the error is started, only its own objects are loaded: new_error or a throw, load, on_error, any scopes it passes unhandled, any code run before it. Refuted in full generality: a try_catch block that returns the error drops the objects its own context held; another error started in between replaces an object of the same type."},
 {"property": "C48", "status": "proved", "theorems": ["C48_pointer_free_semantics", "C48_initial_state"], "note": "For runs in which the stack machine reports no misuse; see C15 for which programs these are."},
 {"property": "C49", "status": "partial", "theorems": ["C49_objects_of_unknown_errors", "C49_new_error_has_no_objects_before_wrap", "C49_new_error_has_no_objects_partial", "C49_new_error_has_no_objects_refuted"], "note": "The general statement is proved for all ids except 1, all programs. The consequence for new errors holds in every process that has generated less than 2^30 - 1 ids. The 2^30-th id is 1, and for it the consequence is false of the code: current_error() without an error is error_id 1, so a thread without an error can load objects for it in advance (refuted)."},
 {"property": "C50", "status": "partial", "theorems": ["C50_changed_arguments_travel", "C50_kept_by_caller_refuted", "C50_rethrown_refuted"], "note": "Proved for try_handle_some handlers that return the error. The documented promise is false in two cases (witnesses): the caller already has an object of this type for the same error, which it keeps; and when the handler communicates the error by throwing (the only way in try_catch), the context is not unloaded and the object is lost. Changes to objects that are part of an exception object are not modelled."},
 {"property": "C51", "status": "partial", "theorems": ["C51_contexts_of_threads_partial", "C51_other_threads", "C51_move_inactive_refuted", "C51_moved_context", "C51_movable_needed"], "note": "Proved for contexts without diagnostic_details (slot<dynamic_allocator>). In builds with assertions the move constructor of an inactive context fails if the context was last activated inside one with a slot of the same type (refuted by witness); the theorem excludes exactly these moves there, and no moves with NDEBUG. Each operation is one step of the interleaving. C51_moved_context: moving one context, in any state, also one that collects objects."},
 {"property": "C52", "status": "proved", "theorems": ["C52_scope_from_beginning_to_end"], "note": "Failures identified by the id 0 (a default-initialised error_id base, error code 0) are left open in the theorem. Needs, as C09 does, that the contexts which collect objects can take more (healthy, preserved by all programs). For third-party results it gives what C29 leaves open: the objects of the scope when no handler matches."},
 {"property": "C53", "status": "proved", "theorems": ["C53_argument_supplied", "C53_called_if_attached", "C53_no_storage"], "note": "What is attached to an exception is given by a function of the exception object (attaching is not modelled). Failures with a default-initialised id are excluded (ei_id ei <> 0). Consequence: the documentation's rewriting of catch(boost::exception &) as a LEAF handler (leaf.adoc:2115-2161) is not equivalent for exceptions that do not derive from std::exception (ex53_not_std)."},
 {"property": "C54", "status": "proved", "theorems": ["C54_assertions_only_stop", "C54_assertions_only_stop_without_exceptions"], "note": "the run with assertions is Fail Assert, or equal to the run without (including undefined behavior), for arbitrary memories. std::terminate for throw; without an exception is the same outcome in the model."},
 {"property": "C55", "status": "partial", "theorems": ["C55_diagnostics_change_only_what_is_shown", "C55_details_refuted", "C55_diagnostics_change_only_what_is_shown_without_exceptions"], "note": "proved for programs whose handlers do not take diagnostic_details and do not depend on the objects a diagnostic_info shows (the run with diagnostics may also be one that accesses freed objects in order to show them). With diagnostic_details the claim is false: such a scope has storage for all types if diagnostics are enabled, so functions passed to load are called which otherwise are not."},
 {"property": "C56", "status": "partial", "theorems": ["C56_capture_only_adds", "C56_capture_only_adds_without_exceptions", "C56_own_unload_refuted", "C56_deferred_refuted"], "note": "proved in both directions for programs which neither call unload of a context of their own nor pass functions returning error objects; in builds without exceptions for those of them which cannot throw. Otherwise false: with capture, unload destroys an object nobody wants, without it stays in the context and a second unload finds it; a function returning an error object nobody wants is called only with capture."},
 {"property": "C57", "status": "partial", "theorems": ["C57_functions_partial", "C57_objects_stored", "C57_functions_refuted", "C57_pointers_refuted", "C57_void_refuted", "C57_members"], "note": "Proved for all types, with an exact characterisation of the functions that are not recognised. False as stated in three cases, each with a witness: noexcept functions passed by name (or through an lvalue pointer) are stored instead of called; lvalue pointers are stored although pointers are not allowed; void functions passed to load do not compile."},
 {"property": "C58", "status": "partial", "theorems": ["C58_parameters_partial", "C58_parameters_refuted", "C58_matches_any_error"], "note": "Exact: a parameter is accepted iff it has a documented form, or is a non-const reference or a pointer to const of one of the library's own info classes (refuted: the checks let these through; they never receive an object). The check on the last handler of try_handle_all is proved equivalent to its arguments being available for every error."},
 {"property": "C59", "status": "partial", "theorems": ["C59_message_partial", "C59_message_refuted"], "note": "Proved for all messages but one; for the message consisting of a single LF the character before the buffer is read."},
 {"property": "C60", "status": "proved", "theorems": ["C60_equal_programs", "C60_equal_programs_without_exceptions", "C60_on_error_nested", "C60_empty_on_error_refuted", "C60_split_handlers_refuted"], "note": "C60_equal_programs: every rule except the last sentence, unconditionally, for any machine (the library model and the specification); the same for builds without exceptions, where try/catch does not exist. C60_on_error_nested: the last sentence. The two refuted theorems show rules which are not in the claim because they do not hold: dropping an on_error without items, distributing handlers over two nested scopes."},
 {"property": "C61", "status": "partial", "theorems": ["C61_in_flight", "C61_in_flight_partial", "C61_in_flight_refuted"], "note": "Proved in full for builds with std::uncaught_exceptions (C++17). With std::uncaught_exception only, false for functions called by destructors during stack unwinding (witness: an on_error in a function that succeeds starts a new error); proved if destructors neither use on_error nor make monitors and no exception is in flight at the beginning. Error objects are not part of this model (see C05, C06, C44)."},
 {"property": "C62", "status": "partial", "theorems": ["C62_value_constructors_partial", "C62_value_constructors_refuted"], "note": "False of the code: constructors taking several arguments or an argument of another type are noexcept, the process is terminated (witness). Proved: exactly which initializations terminate; all others throw as documented, and for all sequences of operations nothing is leaked, destroyed twice or used outside its lifetime. Self-move-assignment is left out, as in C40."},
 {"property": "C63", "status": "proved", "theorems": ["C63_nothing_lost", "C63_nothing_left", "C63_safe_programs", "C63_nothing_left_noexcept"], "note": "Invariant of the pointer machine; no hypothesis about assertions or about the program. Lists owned by results are values of the model: their nodes are the subject of C40 and C41."},
 {"property": "C64", "status": "proved", "theorems": ["C64_no_allocations", "C64_no_allocations_without_capture", "C64_no_allocations_noexcept"], "note": "Counted: executions of the new-expression in error.hpp:286; the only other one (error.hpp:305) is part of try_capture_all. Exceptions allocated by the C++ runtime and by constructors of the user's objects are not the library's."},
 {"property": "C65", "status": "partial", "theorems": ["C65_replaced_ids", "C65_numbers_do_not_matter", "C65_threads", "C65_replaced_ids_noexcept", "C65_numbers_do_not_matter_noexcept", "C65_after_wrap_refuted"], "note": "Proved for all opaque programs, with and without exceptions, for all ids different from 1, hence for every process that has generated less than 2^30 ids. False of the code when the id counter has gone round and id 1 is issued (refuted, cause as in C49). What diagnostic types print (it contains id / 4) is not part of the compared trace."},
 {"property": "C66", "status": "proved", "theorems": ["C66_enough_memory", "C66_stops_or_same", "C66_no_memory_needed", "C66_nothing_lost", "C66_on_error", "C66_on_error_slot", "C66_safe_programs", "C66_safe_frugal_programs", "C66_stops_or_same_without_exceptions", "C66_enough_memory_without_exceptions", "C66_no_memory_needed_without_exceptions"], "note": "Oom.v: which allocations fail is an arbitrary function of their number. Stopped means std::terminate (new_error, load and the others are noexcept), except where std::bad_alloc leaves result::unload / the unloading of a captured result, from where runs are not followed. (2) is proved for one call of on_error's destructor per object, in every state the pointer machine can be in (R). C66_safe_programs and C66_safe_frugal_programs put this together with C15: safe programs (without on_error, or which need no memory) are stopped or run to their end. Builds without exceptions: on_error does not catch there, every program ends where memory runs out or runs as with enough memory."},
 {"property": "C67", "status": "proved", "theorems": ["C67_trace", "C67_trace_exception", "C67_nobody_interested", "C67_no_error"], "note": "Functions between the on_error objects forward failures; programs they run before the call are not part of the statement (they are part of the callee when moved into it, C60). The whole example (main with and without the handler for the trace) is run in examples ex67_*."},
 {"property": "C68", "status": "proved", "theorems": ["C68_print_file", "C68_print_file_last_handler", "C68_print_half", "C68_lua_callback_result", "C68_exception_to_result", "C68_try_capture_all"], "note": "One round of the programs that loop, from the initial state of a thread. Not transcribed: lua_callback_exceptions.cpp (it leaves a try_catch handler by longjmp), the rethrowing in the last handler of exception_to_result.cpp. error_trace.cpp and error_log.cpp: C67."},
 {"property": "C69", "status": "proved", "theorems": ["C69_thread_local", "C69_globals", "C69_freertos"], "note": "FreeRTOS: for the configurations which its static assertion and those of tls_array.hpp accept, and as many types as there are indices; what FreeRTOS own functions do is modelled after their documentation. Globals are shared by threads (ex69_shared), as documented."},
 {"property": "C70", "status": "partial", "theorems": ["C70_settings", "C70_exceptions", "C70_thread_local_storage", "C70_written_out", "C70_every_combination", "C70_string_off_refuted"], "note": "Everything proved except one sentence of the documentation, which is refuted: switching std::string off requires more than switching diagnostics off. Assumed: macros of the compiler which are used as numbers are numbers."}
]}
