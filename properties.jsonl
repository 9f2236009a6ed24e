{"id": "C01", "title": "Generated error ids are always valid", "statement": "Every error_id handed out by new_error / throw_exception / assigned_error_id (any call that starts a new error) has a non-zero value, converts to true, fits in an int, and has its two low bits equal to 01, no matter how many ids the process has generated before, including after the 32-bit counter wraps around.", "quantifier": "all numbers of ids generated so far by the process (unbounded, including wrap-around)", "why_tests_cant": "the interesting cases are around the 2^30-th generated id and after; a test cannot enumerate all counter positions", "anchors": ["include/boost/leaf/error.hpp: id_factory::generate_next_id, new_id, make_error_id, error_id"]}
{"id": "C02", "title": "Error ids are unique across threads", "statement": "If any number of threads concurrently start new errors, then any two of the ids handed out during a window of fewer than 2^30 consecutive generations are different, whichever threads obtained them and in whatever order the scheduler let them run. (The exact period is 2^30: the id obtained 2^30 generations later is equal.)", "quantifier": "all numbers of threads, all interleavings of their id generations, all starting positions of the counter", "why_tests_cant": "requires all schedules and a window of about a billion generations", "anchors": ["include/boost/leaf/error.hpp: id_factory::counter, generate_next_id", "include/boost/leaf/config.hpp: atomic_unsigned_int"]}
{"id": "C03", "title": "current_error is per thread and only changes for the documented reasons", "statement": "Right after a thread starts a new error, current_error() in that thread returns that error's id, whatever other threads do. Running any program in the thread changes current_error() only through: starting a new error in that thread, unloading in that thread a captured result or a scope that collects objects for diagnostic_details, or destroying a LEAF exception that the program caught itself with a plain catch. In particular loading objects, entering/leaving error handling scopes, matching and invoking handlers and on_error never change it on their own when no new error was started.", "quantifier": "all programs, all schedules of other threads", "why_tests_cant": "must hold for every program and every schedule", "anchors": ["include/boost/leaf/error.hpp: current_id, new_id, current_error", "include/boost/leaf/exception.hpp: ~exception", "include/boost/leaf/detail/capture_list.hpp: unload"]}
{"id": "C04", "title": "check()/current_error() are falsy when there is no error", "statement": "error_monitor::check() called when no error was reported since the monitor was created returns a default-initialized error_id (one that converts to false); likewise current_error() in a thread where no error was ever reported, and the error_id of a result created from a default-constructed error_id.", "quantifier": "all programs / all states in which no error occurred since the monitor was created", "why_tests_cant": "documentation promises it for every state; existing tests only look at states after an error", "anchors": ["include/boost/leaf/on_error.hpp: error_monitor::check", "include/boost/leaf/error.hpp: make_error_id, current_error", "doc/leaf.adoc: error_monitor::check"]}
{"id": "C05", "title": "error_monitor finds the error reported since it was created", "statement": "For an error_monitor created at some point: if some new error was started by the thread afterwards, then check() and assigned_error_id() return the id of the most recent one; if none was, assigned_error_id() starts a new error, returns its (fresh) id, and from then on both functions return that same id until yet another error is started.", "quantifier": "all programs run between the creation of the monitor and the calls", "why_tests_cant": "ranges over all programs executed between construction and query", "anchors": ["include/boost/leaf/on_error.hpp: error_monitor::check_id, get_id, check, assigned_error_id"]}
{"id": "C06", "title": "The last loaded object wins and reaches the handler", "statement": "If an error handling scope whose handlers take an argument of type E is the innermost active one for E, then after any sequence of loads (new_error(...), load(...)), the object of type E that handlers of this scope can observe for error id is exactly the last one loaded for E if that load was for id, and none otherwise; objects of other types are not disturbed by loading E.", "quantifier": "all stacks of enclosing scopes, all sequences of loads of any types and ids", "why_tests_cant": "unbounded sequences of loads in arbitrary scope nestings", "anchors": ["include/boost/leaf/error.hpp: load_slot, error_id::load, slot::load", "include/boost/leaf/detail/optional.hpp: load, has_value"]}
{"id": "C07", "title": "Objects nobody needs are discarded without a trace", "statement": "Loading an error object of a type which no active error handling scope of the thread handles, while no try_capture_all / diagnostic_details scope is active, changes nothing that can be observed later. Nor does loading any objects into a default-initialised error_id (no function passed is called, either).", "quantifier": "all states with arbitrary nested scopes, all object types and values", "why_tests_cant": "ranges over all scope stacks and program states", "anchors": ["include/boost/leaf/error.hpp: load_slot, dynamic_load_"]}
{"id": "C08", "title": "Inner scopes are isolated from outer scopes", "statement": "While a scope is active which handles types S, no code running inside it can change, through loads, on_error, nested scopes, exceptions or handlers, any object of a type in S that an enclosing scope already holds; such objects can only change when the inner scope itself exits with an unhandled error (or an error returned/thrown by its handler).", "quantifier": "all programs run inside the scope, all outer scope stacks", "why_tests_cant": "needs all programs, all nestings", "anchors": ["include/boost/leaf/error.hpp: slot::activate, slot::deactivate, load_slot", "include/boost/leaf/context.hpp: context::activate"]}
{"id": "C09", "title": "Unhandled errors carry their objects to the enclosing scope", "statement": "When a scope exits with an error id that none of its handlers handled, each object of type E it holds for id becomes available for id in the innermost enclosing scope which handles E, unless that one already holds an object of type E for the same id, which is then kept; objects the scope held for other error ids are dropped; nothing else changes in enclosing scopes.", "quantifier": "all scopes, all sets of held objects, all enclosing stacks", "why_tests_cant": "all combinations of held/outer objects, ids and nestings", "anchors": ["include/boost/leaf/error.hpp: slot::unload", "include/boost/leaf/context.hpp: context::unload, tuple_for_each::unload", "include/boost/leaf/handle_errors.hpp: try_handle_some, try_catch"]}
{"id": "C10", "title": "A handled error leaves enclosing scopes untouched", "statement": "If a scope's body fails and a handler handles the error (returns a value) without itself communicating errors, then every enclosing scope holds exactly the objects it held when the body of the scope finished, and for types which the scope itself handles exactly the objects it held before the scope was entered.", "quantifier": "all bodies, all handler sets, all enclosing stacks", "why_tests_cant": "needs all programs", "anchors": ["include/boost/leaf/handle_errors.hpp: try_handle_some, try_handle_all, try_catch", "include/boost/leaf/context.hpp"]}
{"id": "C11", "title": "Handler selection picks the first matching handler, exactly one", "statement": "For a detected error, the handlers are considered in the order given (tuples of handlers, nested to any depth, count as their elements spliced in place); the first one all of whose arguments can be supplied (required objects available for exactly this error id or convertible from the caught exception, predicates true, pointers and error_info-like arguments always) is invoked with those arguments, exactly once, and no other handler is invoked.", "quantifier": "all handler lists and tuple nestings, all argument lists, all scope contents and caught exceptions", "why_tests_cant": "infinitely many handler lists and contents", "anchors": ["include/boost/leaf/handle_errors.hpp: handle_error_, handle_error_tuple_, check_arguments, handler_matches_any_error, peek"]}
{"id": "C12", "title": "try_handle_all never lets a failure escape", "statement": "A try_handle_all whose last handler takes no required argument returns a plain value for every try block: a handler is invoked for every failure (result or exception), and the only exceptions which leave it are those thrown by the invoked handler.", "quantifier": "all try blocks, all handler lists ending with a match-all handler, all states", "why_tests_cant": "all programs", "anchors": ["include/boost/leaf/handle_errors.hpp: try_handle_all, try_catch_, handle_error_"]}
{"id": "C13", "title": "On success handlers are not run and the value is passed through", "statement": "If the try block of try_handle_all / try_handle_some / try_catch / try_capture_all succeeds, its value is returned unchanged, no handler is invoked, enclosing scopes hold the same objects as when the block finished, and whatever the scope itself collected is dropped.", "quantifier": "all try blocks that succeed, all handler lists, all states", "why_tests_cant": "all programs", "anchors": ["include/boost/leaf/handle_errors.hpp: try_handle_all, try_handle_some, try_catch, try_capture_all"]}
{"id": "C14", "title": "Scopes are always properly unwound", "statement": "For every program and every way of leaving a scope (value, error result, exception, exception thrown by a handler, rethrow) the set of active error handling scopes of the thread after it is the same as before: later loads go to the same enclosing scopes as before, and no storage belonging to a finished scope can be reached.", "quantifier": "all programs, all exits", "why_tests_cant": "all programs and exit paths", "anchors": ["include/boost/leaf/context.hpp: raii_deactivator, activate, deactivate", "include/boost/leaf/error.hpp: slot::activate, deactivate", "include/boost/leaf/handle_errors.hpp"]}
{"id": "C15", "title": "No library assertion fails and no dangling object is touched", "statement": "A program which only uses the public API with valid error ids never makes the library access a destroyed object or violate one of its own assertions, whatever errors, exceptions, nested scopes, captures and diagnostics it uses.", "quantifier": "all programs", "why_tests_cant": "memory safety over all programs; failing cases need specific rare combinations", "anchors": ["include/boost/leaf/error.hpp: slot, dynamic_allocator, dynamic_accumulate_", "include/boost/leaf/detail/capture_list.hpp", "include/boost/leaf/handle_errors.hpp: try_capture_all_dispatch"]}
{"id": "C16", "title": "on_error augments exactly the error that passes through its scope, and only it", "statement": "When a scope holding an on_error object is left: if an error was started in the thread since the object was created, the on_error items are loaded, in the order they were given, for the most recent such error; otherwise, if the scope is left by an exception, a new error is started and the items are loaded for it; otherwise nothing is loaded and nothing is invoked. Objects of the same type already available for that error in the receiving scope are not overwritten.", "quantifier": "all programs run in the scope, all exits, all item lists", "why_tests_cant": "all programs, exits and item lists", "anchors": ["include/boost/leaf/on_error.hpp: preloaded, error_monitor::check_id, tuple_for_each_preload", "include/boost/leaf/error.hpp: load_slot<OnError>"]}
{"id": "C17", "title": "Accumulating functions see the object collected so far", "statement": "A single-argument function taking E& passed to new_error / load / on_error, when E is handled by an active scope, is called exactly once with the object of type E already held by the innermost such scope for this error id if there is one, otherwise with a freshly default-initialized one, and the object as modified by the function is then held for this error id; k such calls apply the functions in order.", "quantifier": "all states, all functions, all sequences of such loads", "why_tests_cant": "unbounded sequences, all states", "anchors": ["include/boost/leaf/error.hpp: load_slot_accumulate"]}
{"id": "C18", "title": "Deferred functions run only if their object is needed", "statement": "A function of no arguments passed to new_error / load / on_error is called at most once, and only if the object it returns is going to be stored; if the object would be discarded (no scope needs it), or is already available for on_error, the function is not called.", "quantifier": "all states, all functions", "why_tests_cant": "documentation promises it for every state", "anchors": ["include/boost/leaf/error.hpp: load_slot_deferred", "doc/leaf.adoc: Loading of Error Objects"]}
{"id": "C19", "title": "Capturing and unloading transports every object of the error", "statement": "For a task that reports a single error and is run under try_capture_all with no enclosing scopes in that thread: the returned result holds, for every type loaded for the error, exactly the object a handler would have seen, and unloading it (BOOST_LEAF_CHECK / value() inside an error handling scope, possibly in another thread) makes every one of those that the scopes there handle available for the same error id, exactly as if it had been loaded there.", "quantifier": "all tasks reporting one error with any objects, all receiving scope stacks", "why_tests_cant": "all tasks, all receivers, two threads", "anchors": ["include/boost/leaf/handle_errors.hpp: try_capture_all", "include/boost/leaf/error.hpp: dynamic_allocator", "include/boost/leaf/detail/capture_list.hpp: unload", "include/boost/leaf/result.hpp: unload"]}
{"id": "C20", "title": "A failed task is captured with the objects of its own error", "statement": "The result returned by try_capture_all for a failed task holds every error object loaded for the reported error id, regardless of other errors that were started and abandoned during the task.", "quantifier": "all tasks, including those that recover from some errors internally", "why_tests_cant": "depends on the history of earlier, abandoned errors", "anchors": ["include/boost/leaf/handle_errors.hpp: try_capture_all_dispatch_non_void", "include/boost/leaf/error.hpp: dynamic_load_", "include/boost/leaf/detail/optional.hpp: value_or_default"]}
{"id": "C21", "title": "A captured exception is rethrown after its error objects are available", "statement": "If the task run under try_capture_all fails by throwing, unloading the returned result in a scope first loads all captured objects for the error, sets the thread's current error to it, and then rethrows the captured exception, which every enclosing try_catch / try_handle_* associates with the same error id.", "quantifier": "all tasks that throw, all receiving scopes", "why_tests_cant": "all tasks and receivers", "anchors": ["include/boost/leaf/error.hpp: capturing_exception_node, extract_capture_list", "include/boost/leaf/detail/capture_list.hpp: unload"]}
{"id": "C22", "title": "try_capture_all captures only the task's own failure", "statement": "If the task run under try_capture_all reports its failure through a result (does not throw), then unloading the captured result does not throw.", "quantifier": "all tasks, all places where try_capture_all is called, including inside a catch block", "why_tests_cant": "depends on the dynamic context of the call", "anchors": ["include/boost/leaf/error.hpp: extract_capture_list", "include/boost/leaf/handle_errors.hpp: try_capture_all_dispatch_non_void"]}
{"id": "C23", "title": "A result keeps its error id, whatever is done with it", "statement": "Moving a result, converting it between value types through error(), and capturing never change the error id of a failed result; a failed result never appears as successful or vice versa; value() of a failed result throws bad_result associated with the same id (after unloading captured objects), and of a successful one returns the stored value. Moving from a captured result transfers its objects exactly once.", "quantifier": "all sequences of moves/assignments/conversions over any number of result objects, all ids", "why_tests_cant": "unbounded operation sequences", "anchors": ["include/boost/leaf/result.hpp: result, result_discriminant, error_result, enforce_value_state"]}
{"id": "C24", "title": "BOOST_LEAF_CHECK/ASSIGN/AUTO forward failures verbatim", "statement": "If the checked operation fails, the enclosing function returns a failure with the same error id and the same captured objects, without running the rest of the function, and without changing any error storage; if it succeeds, execution continues with its value. Chaining any number of such checks forwards the first failure.", "quantifier": "all operations, all chains of calls of any length", "why_tests_cant": "all programs and call depths", "anchors": ["include/boost/leaf/error.hpp: BOOST_LEAF_ASSIGN, BOOST_LEAF_AUTO, BOOST_LEAF_CHECK", "include/boost/leaf/result.hpp: error_result"]}
{"id": "C25", "title": "A LEAF exception is recognised at every level", "statement": "An exception thrown by throw_exception, however many scopes it propagates through without being handled, is associated at every one of them with the id it was thrown with, and the objects passed when it was thrown are available for that id in the innermost scope that handles their type.", "quantifier": "all nestings of scopes (any depth), all handler lists, all items", "why_tests_cant": "unbounded nesting", "anchors": ["include/boost/leaf/exception.hpp: throw_exception, make_exception, exception", "include/boost/leaf/handle_errors.hpp: unpack_error_id, try_catch"]}
{"id": "C26", "title": "Catching a LEAF exception by hand ends its error", "statement": "If user code catches an exception thrown by throw_exception with a plain catch and lets it go, and no other error was started in the meantime, current_error() no longer reports it and on_error scopes around do not consider it pending; if it was examined by a LEAF error handling scope, or another error is current, current_error() is left alone.", "quantifier": "all programs", "why_tests_cant": "all programs and interleavings of errors", "anchors": ["include/boost/leaf/exception.hpp: exception::~exception, clear_current_error_"]}
{"id": "C27", "title": "Foreign exceptions only see objects of their own failure", "statement": "For an exception not thrown through LEAF, handlers receive only error objects that were loaded for the failure that threw it (by on_error while it propagated), never objects of an earlier, unrelated error.", "quantifier": "all programs run before the exception is thrown", "why_tests_cant": "depends on the history of earlier errors", "anchors": ["include/boost/leaf/handle_errors.hpp: unpack_error_id, try_catch", "include/boost/leaf/on_error.hpp: error_monitor::check_id"]}
{"id": "C28", "title": "error_id and std::error_code convert into each other without loss", "statement": "Converting any error_id to std::error_code and back gives the same id, starts no new error and loads nothing; converting a std::error_code of another category with non-zero value starts a new error and makes the code itself available to handlers as a std::error_code for that new id; a zero code gives a falsy error_id and does nothing. is_error_id is true exactly for codes obtained from an error_id.", "quantifier": "all ids, all codes and categories, all states", "why_tests_cant": "all 2^32 ids and codes, all states", "anchors": ["include/boost/leaf/error.hpp: import_error_code, error_id::operator T, leaf_error_category, is_error_id"]}
{"id": "C29", "title": "Third-party results carrying std::error_code work like LEAF results", "statement": "If a try block returns a registered third-party result type failing with a std::error_code, handlers of the scope can receive that std::error_code; if unhandled, objects associated with the failure in the inner scope remain associated with it in the outer scope.", "quantifier": "all nestings, all codes, all handler lists", "why_tests_cant": "unbounded nesting; ids are regenerated at each level", "anchors": ["include/boost/leaf/handle_errors.hpp: try_handle_some", "include/boost/leaf/error.hpp: import_error_code"]}
{"id": "C30", "title": "exception_to_result converts every exception", "statement": "exception_to_result never throws; a returned value passes through; for a thrown exception it returns a failure with a fresh id for which, in scopes that handle them, the std::exception_ptr and one slice for each listed type the exception derives from are available.", "quantifier": "all wrapped functions, all exception types and type lists, all scope stacks", "why_tests_cant": "all programs and type lists", "anchors": ["include/boost/leaf/exception.hpp: exception_to_result, catch_exceptions_helper"]}
{"id": "C31", "title": "to_variant reports the value or exactly the available objects", "statement": "to_variant returns the first alternative with the value on success; on failure it returns the second alternative holding, for each requested type, the object available for the error, or empty if there is none.", "quantifier": "all try blocks, all lists of error types", "why_tests_cant": "all programs", "anchors": ["include/boost/leaf/to_variant.hpp: to_variant"]}
{"id": "C32", "title": "Every object type the handlers need is stored, once", "statement": "The storage deduced for a list of handlers (including nested tuples) has exactly one cell for each error type any handler argument needs, none for abstract types and error_id, in order of first use, and nothing else.", "quantifier": "all handler lists of any length and nesting, all argument lists", "why_tests_cant": "infinitely many type lists (it is a compile-time computation, tests instantiate a few)", "anchors": ["include/boost/leaf/context.hpp: deduce_e_type_list, context_type_from_handlers", "include/boost/leaf/detail/mp11.hpp: mp_unique, mp_append, mp_remove_if"]}
{"id": "C33", "title": "Index sequences enumerate every position once", "statement": "make_index_sequence<N> is 0,1,...,N-1 for every N, so unpacking a handler tuple of any size uses each handler exactly once, in order.", "quantifier": "all N", "why_tests_cant": "all sizes", "anchors": ["include/boost/leaf/detail/mp11.hpp: make_integer_sequence"]}
{"id": "C34", "title": "Array-based TLS behaves like per-type thread-local pointers", "statement": "With BOOST_LEAF_USE_TLS_ARRAY, for any interleaving of threads reading and writing pointers of any types, each read returns what that thread last wrote for that very type (null if it never wrote), provided the number of distinct types written does not exceed the index range; reading a type never written by anyone consumes no index.", "quantifier": "all interleavings of reads/writes by any number of threads over any number of types", "why_tests_cant": "all schedules and first-use orders", "anchors": ["include/boost/leaf/config/tls_array.hpp: index_counter, tls_index, alloc_tls_index, read_ptr, write_ptr"]}
{"id": "C35", "title": "Predicates mean what they say", "statement": "match / match_value / match_member are true exactly if the value equals one of the listed values or one of the listed functions returns true for it; catch_<Ex...> exactly if the caught exception can be dynamically cast to one of the types (any exception if the list is empty); category compares the category only; if_not<P> is available whenever P's object is available and true exactly if P is false.", "quantifier": "all values, all lists of alternatives of any length, all nestings of if_not", "why_tests_cant": "all lists and values", "anchors": ["include/boost/leaf/pred.hpp: match, match_value, match_member, catch_, if_not, cmp_value_pack, check_exception_pack, category, condition"]}
{"id": "C36", "title": "Type names in diagnostics are extracted exactly", "statement": "For every type name (any string, including ones that contain the prefix or suffix text), the name printed in diagnostics is exactly the part of the compiler-generated signature between the recognised prefix and suffix. A signature in any other format is rejected when the program is compiled.", "quantifier": "all type names, all signatures", "why_tests_cant": "all strings", "anchors": ["include/boost/leaf/detail/demangle.hpp: check_prefix, check_suffix, n::p"]}
{"id": "C37", "title": "Diagnostics list exactly the objects of the error being handled", "statement": "diagnostic_info lists, in storage order, exactly the objects of the scope held for the handled error id whose types are shown in diagnostics; diagnostic_details additionally lists exactly the dynamically kept objects of this id; the section title is printed once, before the first object, and only if there is one. A printed context lists its objects of any error. A printed result shows its value (\"No error\" for result<void>, \"{not printable}\" if the type has no operator<<) or the serial number of its error and the captured objects of that error.", "quantifier": "all scope contents, all sets of hidden types", "why_tests_cant": "all contents", "anchors": ["include/boost/leaf/context.hpp: tuple_for_each::print", "include/boost/leaf/error.hpp: slot::print", "include/boost/leaf/diagnostics.hpp", "include/boost/leaf/detail/print.hpp: print_name", "include/boost/leaf/detail/capture_list.hpp: print", "include/boost/leaf/result.hpp:33-62, 334-351, 598-606, 698-707"]}
{"id": "C38", "title": "Threads do not influence each other except through id numbering", "statement": "For any set of threads each running any program, under any schedule, the outcome and effects of each thread are exactly those of running its program alone with the ids it happened to be assigned.", "quantifier": "all sets of programs, all schedules", "why_tests_cant": "all schedules", "anchors": ["include/boost/leaf/error.hpp: id_factory, tls", "include/boost/leaf/config/tls_cpp11.hpp"]}
{"id": "C39", "title": "Error object storage never leaks or double-destroys", "statement": "For any sequence of load, reset, copy, move, assign, move-out and destroy operations on keyed storage cells, with constructors that may throw at any point, every object constructed in a cell is destroyed exactly once and no destroyed or never-constructed object is accessed.", "quantifier": "all operation sequences over any number of cells, all failure points of copy constructors", "why_tests_cant": "unbounded sequences and failure points", "anchors": ["include/boost/leaf/detail/optional.hpp: optional"]}
{"id": "C40", "title": "result objects never leak, double-destroy or read a destroyed value", "statement": "For any sequence of construction, move construction, move assignment, conversion and destruction over any number of result objects, every stored value and captured list is destroyed exactly once and only live ones are read.", "quantifier": "all operation sequences over any number of result objects (including self-move-assignment)", "why_tests_cant": "unbounded sequences", "anchors": ["include/boost/leaf/result.hpp: result::destroy, move_from, move_assign"]}
{"id": "C41", "title": "Capture lists keep every node exactly once, in order", "statement": "For any sequence of appends, moves, extractions, unloads and destructions of capture lists, the nodes of a list are the appended ones in order, every node is freed exactly once, and no freed node is accessed.", "quantifier": "all operation sequences over any number of lists", "why_tests_cant": "unbounded sequences of pointer manipulations", "anchors": ["include/boost/leaf/detail/capture_list.hpp: capture_list, node", "include/boost/leaf/error.hpp: dynamic_allocator"]}
{"id": "C42", "title": "Printed serial numbers distinguish errors", "statement": "Two valid error ids that print the same serial number are equal.", "quantifier": "all pairs of valid error ids", "why_tests_cant": "2^60 pairs", "anchors": ["include/boost/leaf/error.hpp: operator<<(ostream, error_id)"]}
{"id": "C43", "title": "Builds without exceptions behave the same for programs that do not throw", "statement": "For a program whose try blocks and handlers do not throw, try_handle_all and try_handle_some have the same outcome and effects in builds with and without exceptions.", "quantifier": "all non-throwing try blocks and handlers, all states", "why_tests_cant": "all programs, two build configurations", "anchors": ["include/boost/leaf/handle_errors.hpp: try_handle_all, try_handle_some (both configurations)"]}
{"id": "C44", "title": "Moving an on_error object does not duplicate or lose its effect", "statement": "However often the object returned by on_error is moved before it is destroyed, its items are triggered at most once, by the last object, relative to the point where it was first created. Objects destroyed one after the other (an exception passing through their scopes) are all triggered with one id.", "quantifier": "all numbers of moves, all points of destruction", "why_tests_cant": "unbounded move chains", "anchors": ["include/boost/leaf/on_error.hpp: preloaded(preloaded&&), ~preloaded, error_monitor::check_id"]}
{"id": "C45", "title": "Objects reported by a handler are not lost", "statement": "If a handler of try_handle_some itself returns an error (the same id or a new one), the objects loaded for that id in the handler go to the enclosing scopes, and objects the scope holds for that id are carried to the enclosing scopes unless already there.", "quantifier": "all bodies, handlers and enclosing stacks", "why_tests_cant": "all programs", "anchors": ["include/boost/leaf/handle_errors.hpp: try_handle_some"]}
{"id": "C46", "title": "Unloading a context does not overwrite objects of the same error", "statement": "context::unload(id) moves each object held for id to the innermost active scope handling its type unless an object for the same id is already there (which is kept), leaves other ids alone, and can be repeated and interleaved with re-activation of the context without other effects.", "quantifier": "all contexts and stacks, all ids, all sequences of activate/deactivate/unload", "why_tests_cant": "unbounded sequences", "anchors": ["include/boost/leaf/context.hpp: context::unload", "include/boost/leaf/error.hpp: slot::unload, dynamic_allocator"]}
{"id": "C47", "title": "diagnostic_details sees every object of the error", "statement": "If a scope has a handler that takes diagnostic_details, every object loaded for the handled error inside the scope is either available to handlers of that scope or an enclosing one by type, or listed by diagnostic_details.", "quantifier": "all programs run inside the scope", "why_tests_cant": "all programs", "anchors": ["include/boost/leaf/diagnostics.hpp: diagnostic_details", "include/boost/leaf/error.hpp: dynamic_load_"]}
{"id": "C48", "title": "Pointer-free semantics: scopes behave like a stack of per-type cells", "statement": "Every program behaves (value returned, exception thrown, handlers invoked and their arguments, functions called, current error) exactly as in a simple model without pointers, where the thread has a stack of scopes, a load goes to the innermost scope having the type, and leaving a scope pops it.", "quantifier": "all programs and all initial scope stacks", "why_tests_cant": "all programs", "anchors": ["include/boost/leaf/error.hpp: slot (prev_ list), tls", "include/boost/leaf/context.hpp"]}
{"id": "C49", "title": "Code that does not know an error's id cannot add to or change its objects", "statement": "Running code that does not contain the id of an error, is not given it, and does not start an error with this id, leaves no object of this error anywhere that was not there before (it can only lose objects of it) and does not return, throw or make current anything that mentions the id. In particular a newly started error has no objects: nothing loaded earlier can be taken for an object of it.", "quantifier": "all programs, all scope stacks, all ids", "why_tests_cant": "all programs; a stray association is only seen if the ids happen to coincide", "anchors": ["include/boost/leaf/error.hpp: slot::load, slot::unload, current_error, new_error", "include/boost/leaf/context.hpp"]}
{"id": "C50", "title": "Changes a handler makes to its arguments travel with the error", "statement": "When a handler takes an error object by mutable reference or pointer, changes it, and communicates the error it handles to the caller, the caller's scopes get the object with the change; objects it did not change, or takes by value, arrive as they were, and nothing else is affected (doc: 'changes to their state are preserved when the error is communicated to the caller').", "quantifier": "all handlers, argument lists, assignments, scope stacks and errors", "why_tests_cant": "the tests have three fixed handlers in fixed nestings, none of them with an object of the same error already in the caller's scope and none that throws", "anchors": ["include/boost/leaf/context.hpp:48-56,109-117 handler_argument_traits for E & and E *", "include/boost/leaf/handle_errors.hpp:253-257 peek", "include/boost/leaf/handle_errors.hpp:639-702", "doc/leaf.adoc:432", "test/handle_basic_test.cpp:103-171"]}
{"id": "C51", "title": "Contexts shared by and moved between threads", "statement": "Any number of threads can create contexts, pass them to each other, move them, activate and deactivate them, load and unload error objects and destroy contexts, in any interleaving, as long as a context that is active is only used by the thread it is active in and contexts are deactivated in reverse order: every load goes to the innermost active context of the loading thread with a slot of the type, unloading and moving transfer exactly the objects concerned, no assertion fails, no destroyed object is touched, and no operation changes the contexts active in another thread, where that thread's loads go, or its current error.", "quantifier": "all sequences of operations by all numbers of threads, all type lists, ids, values and configurations", "why_tests_cant": "capture_*_async tests run a few fixed tasks with one scheduling each; none moves a context that was activated inside another, which asserts", "anchors": ["include/boost/leaf/context.hpp:275-314,336-370", "include/boost/leaf/error.hpp:123-175 slot", "include/boost/leaf/config/tls_cpp11.hpp:26-68"]}
{"id": "C52", "title": "An error handling scope from beginning to end", "statement": "try_handle_all, try_handle_some and try_catch make one new empty context for the types their handlers need and run the try block in it. A success is returned unchanged and what the enclosing contexts hold is as the try block left it. A failure is identified by the id of the returned result (for third-party results: by the error code if it is of LEAF's category, otherwise as a new error for which the code is loaded), of the LEAF exception, of the exception's error_id base, or by the thread's current error, in this order; objects captured with the result are first moved to the active contexts and a captured exception is treated like one that was thrown. Then the first handler whose arguments can be supplied is called and its outcome is the scope's, the objects of an error it returns from try_handle_some being moved out; or, if there is none, the failure is passed on with the objects of this error moved to the enclosing contexts. Nothing else is possible. (Left open: failures which carry a default-initialised error_id, or the error code 0.)", "quantifier": "all three functions, all try blocks, handlers, scope stacks, memory states and configurations", "why_tests_cant": "each test checks one way through a scope in one nesting; that there is no other way out of a scope, for any program in the try block and handlers, is a statement about all executions", "anchors": ["include/boost/leaf/handle_errors.hpp:578-667 try_catch_, try_handle_all, try_handle_some", "include/boost/leaf/handle_errors.hpp:668-702 try_catch", "include/boost/leaf/handle_errors.hpp:23-30", "include/boost/leaf/context.hpp:294-370", "include/boost/leaf/result.hpp unload"]}
{"id": "C53", "title": "Handlers for information attached by Boost.Exception", "statement": "A handler argument of type boost::error_info<Tag, T>, or a predicate over it, can be supplied exactly if the failure is an exception which derives from std::exception and from boost::exception, carries an info with this tag, and the predicate is true of its value; the handler then gets this value. A failure reported by a result never supplies it. If the first handler takes just this argument it is called in these cases and otherwise the remaining handlers are tried as if it was not there. Such arguments take no storage.", "quantifier": "all three scope functions, all try blocks, handlers, states, infos and predicates", "why_tests_cant": "boost_exception_test.cpp tries one exception type with one value under try_catch; failures through results, exceptions from captured results and exceptions that lack one of the bases are not tried", "anchors": ["include/boost/leaf/handle_errors.hpp:838-842 get_exception", "include/boost/leaf/handle_errors.hpp:851-872 handler_argument_traits<boost::error_info>", "include/boost/leaf/context.hpp:62-83", "doc/leaf.adoc:2110-2161"]}
{"id": "C54", "title": "Assertions have no effect but to stop the program", "statement": "A build with assertions (BOOST_LEAF_ASSERT) either stops the program at an assertion or does exactly what the build without them does: same value, exception or undefined behavior, same memory, same ids obtained, same calls of user functions.", "quantifier": "all programs (any nesting of scopes, contexts, captures, handlers), all states of the thread, consistent or not, all configurations", "why_tests_cant": "the test suite is run in debug and release builds, but on its own programs only, and compares neither memory nor the order of effects between the two builds", "anchors": ["include/boost/leaf/config.hpp:31-34", "include/boost/leaf/error.hpp:130-133, 279-289, 411-426", "include/boost/leaf/context.hpp:321-324, 336-363", "include/boost/leaf/detail/optional.hpp:109-134, 160-186"]}
{"id": "C55", "title": "Diagnostics change only what is shown", "statement": "Building with BOOST_LEAF_CFG_DIAGNOSTICS=0, which stubs out diagnostic_info and diagnostic_details, changes nothing else about a program: same value or exception, same memory, same ids obtained, same calls of user functions, provided the handlers do not depend on what the diagnostics show.", "quantifier": "all programs, states and configurations", "why_tests_cant": "the tests compare the printed text in each configuration; that everything else is equal in the two builds is a statement about pairs of runs of all programs", "anchors": ["include/boost/leaf/diagnostics.hpp:14, 60-68, 124-126, 173-182, 226", "include/boost/leaf/context.hpp:206-212", "doc/leaf.adoc:5536"]}
{"id": "C56", "title": "Capture support adds try_capture_all and nothing else", "statement": "Building with BOOST_LEAF_CFG_CAPTURE=0 disables try_capture_all (and the storage of diagnostic_details); a program that does not use them does the same in both builds: same value or exception, same ids, same calls of user functions, and the contexts of the thread hold the same objects afterwards.", "quantifier": "all programs without try_capture_all and diagnostic_details, all consistent states of the thread in which no context collects objects, both directions", "why_tests_cant": "a statement about pairs of runs of all programs under two configurations; the tests run each configuration separately", "anchors": ["include/boost/leaf/error.hpp:411-426, 428-486", "include/boost/leaf/detail/optional.hpp:179-186", "include/boost/leaf/diagnostics.hpp:126, 174", "doc/leaf.adoc:5542"]}
{"id": "C57", "title": "Functions and objects passed to load, new_error and on_error are told apart", "statement": "What happens with an argument of load, new_error or on_error depends on its type only: a function of no arguments is called and the object it returns is loaded (a void function is just called), a function of one argument E & is called with the object of type E, anything else is an error object and is stored; pointers are not accepted as error objects.", "quantifier": "all argument types (functions, pointers to functions, classes with one operator() with any qualifiers, classes without; lvalues and rvalues, const or not)", "why_tests_cant": "overload and specialization selection over an unbounded set of types; the tests pass a few lambdas, and a wrong choice silently stores the function instead of calling it", "anchors": ["include/boost/leaf/detail/function_traits.hpp:17-92", "include/boost/leaf/error.hpp:428-526", "include/boost/leaf/on_error.hpp:86-217", "doc/leaf.adoc:860-905, 3994-3999"]}
{"id": "C58", "title": "Handler parameters mean what is documented, and the last handler of try_handle_all takes anything", "statement": "A handler parameter is accepted only in the documented forms and then means what is documented: error types by value, (const) reference or pointer (to const), predicates and boost::error_info by value, error_info, diagnostic_info and diagnostic_details by const reference. The compile time check on the last handler of try_handle_all holds exactly if its arguments can be supplied for every error.", "quantifier": "all parameter types built from classes, const, references and pointers; all parameter lists; for the last part all contexts and errors", "why_tests_cant": "the forms which are not accepted can not be tested by programs that compile, and the check quantifies over all errors", "anchors": ["include/boost/leaf/context.hpp:20-133", "include/boost/leaf/handle_errors.hpp:110-119, 296-371, 415-432, 850-877", "include/boost/leaf/diagnostics.hpp:60-68, 109-117, 173-182, 225-233, 276-284", "doc/leaf.adoc:3362, 3395-3425"]}
{"id": "C59", "title": "Windows error messages are printed without their line ending", "statement": "operator<< of windows::e_LastError prints the number and the system's message in quotes, without the line ending (CR LF, LF or CR) at its end, and reads only the message.", "quantifier": "all values, all non-empty messages", "why_tests_cant": "the messages come from the operating system; a test sees a few of them, and reading one character before the buffer has no visible effect", "anchors": ["include/boost/leaf/common.hpp:68-106"]}
{"id": "C60", "title": "Different ways to write the same program", "statement": "These may be exchanged for each other anywhere in a program, any number of times, without changing its outcome, the error objects, the ids, the order of user-visible events or whether it is undefined: new_error(a..., b...) and new_error(a...).load(b...); load(a..., b...) and load(a...).load(b...); throw_exception(x, a...) and throw_exception(new_error(a...), x); throw_exception(id, x, a..., b...) and id.load(a...), then throw_exception(id, x, b...); value() of an error and throwing bad_result for it; try{p}catch(...){throw;} and p; nested BOOST_LEAF_CHECKs and consecutive ones; handlers in tuples and the same handlers listed. Two on_error objects in one scope act like one with the items of the inner one first, unless an id in use is handed out again.", "quantifier": "all programs, handlers, positions in a program, configurations, states", "why_tests_cant": "a test runs one program and its rewriting; this is about all contexts the two can be placed in", "anchors": ["include/boost/leaf/error.hpp:25-59", "include/boost/leaf/error.hpp:682-765", "include/boost/leaf/exception.hpp:167-222", "include/boost/leaf/handle_errors.hpp:415-474", "include/boost/leaf/on_error.hpp:166-198", "include/boost/leaf/result.hpp:309-325"]}
{"id": "C61", "title": "Errors are told apart from exceptions already in flight", "statement": "on_error loads its items exactly if, since it was created, an error was started or an exception leaves its scope, and error_monitor::check reports an error exactly if one was started or an exception thrown since its construction is in flight; this holds wherever the code runs, including functions called by destructors during stack unwinding.", "quantifier": "all nestings of functions, destructors, handlers, on_error objects and monitors; any number of exceptions in flight", "why_tests_cant": "nestings are unbounded, and the tests do not call on_error from destructors", "anchors": ["include/boost/leaf/on_error.hpp:13-67", "include/boost/leaf/on_error.hpp:191-197", "include/boost/leaf/config.hpp:205-212"]}
{"id": "C62", "title": "Exceptions thrown by constructors of values", "statement": "If initializing a result<T> with a value throws, because of the constructor of T that is invoked, the exception leaves the constructor of the result; no result and no value exist afterwards, other results are unchanged, and nothing is leaked or destroyed twice. Only moving a T is required not to throw.", "quantifier": "all sequences of operations on any number of result objects of any types; any constructor or conversion of values may throw", "why_tests_cant": "the tests have no values whose construction throws; sequences are unbounded", "anchors": ["include/boost/leaf/result.hpp:260-281", "include/boost/leaf/result.hpp:327-332", "include/boost/leaf/result.hpp:359-428", "include/boost/leaf/result.hpp:451-462", "doc/leaf.adoc:4534-4556"]}
{"id": "C63", "title": "Nothing is left behind in the storage of error objects", "statement": "However a program ends (with a value, a failure, or an exception nothing handles), the storage contains afterwards the same contexts as before; every slot that lives belongs to a context that lives and has a slot of that type; every dynamically allocated node that lives is in the list of a slot that lives. At the end of a thread's whole program nothing lives: no context, no slot, no node.", "quantifier": "all programs, all build configurations including builds without exceptions, all starting states in which nothing is lost, all outcomes", "why_tests_cant": "a leaked node is invisible to the tests: each of them checks what handlers receive, and the number of ways to allocate, move, unload and abandon nodes is unbounded", "anchors": ["include/boost/leaf/detail/capture_list.hpp:55-96", "include/boost/leaf/error.hpp:256-331", "include/boost/leaf/error.hpp:333-376", "include/boost/leaf/context.hpp:226-305", "include/boost/leaf/handle_errors.hpp:520-800"]}
{"id": "C64", "title": "No dynamic memory allocations unless asked for", "statement": "The library allocates memory dynamically only for a program that uses try_capture_all, or has error handlers that take diagnostic_details (with diagnostics enabled): any other program, started where no active scope collects, executes no new-expression, whatever objects it loads and however it ends. With BOOST_LEAF_CFG_CAPTURE=0 no program at all does.", "quantifier": "all programs, all configurations with and without exceptions, all states in which no collecting scope exists, all outcomes", "why_tests_cant": "the tests do not count allocations, and the number of programs is unbounded", "anchors": ["include/boost/leaf/error.hpp:279-311", "include/boost/leaf/error.hpp:333-376", "include/boost/leaf/diagnostics.hpp:156-182", "include/boost/leaf/handle_errors.hpp:706-815", "doc/leaf.adoc:34", "doc/leaf.adoc:3838", "doc/leaf.adoc:5542", "doc/leaf.adoc:5824"]}
{"id": "C65", "title": "Error ids are opaque: which numbers are used does not matter", "statement": "A program that treats error ids as opaque (stores, copies and compares them for equality only) behaves the same whichever numbers the library generates for it: the same events, the same outcome and the same storage, up to a one-to-one replacement of the ids. So it also behaves the same in every thread under every schedule and whatever the other threads do, as long as the process has generated less than 2^30 ids. (After that one id is 1, the id current_error() has without an error, and the claim is false of the code.)", "quantifier": "all opaque programs, all supplies of distinct valid ids, all numbers of threads and all schedules, all outcomes", "why_tests_cant": "a test runs with one sequence of ids; behaviour that depends on the numbers (comparison by order, reserved values, arithmetic on ids) shows only for particular ones", "anchors": ["include/boost/leaf/error.hpp:160-232", "include/boost/leaf/error.hpp:446-520", "include/boost/leaf/error.hpp:840-1010", "include/boost/leaf/handle_errors.hpp:126-240", "doc/leaf.adoc:3075", "doc/leaf.adoc:5691"]}
{"id": "C66", "title": "Running out of memory: on_error drops objects, everything else stops or is unaffected", "statement": "If some of the library's memory allocations fail (std::bad_alloc): (1) a program that does not use on_error is either stopped or behaves exactly as with enough memory, it never goes on with an error object missing; (2) on_error never stops the program: it either works as with enough memory or drops the one object it could not store, objects in slots and objects collected before being unaffected, and an object for which there is a slot is never dropped; (3) a program for which the library allocates nothing behaves the same however little memory there is; (4) whichever allocations fail, no storage is lost.", "quantifier": "all programs, all sets of failing allocations, all states; a run in which std::bad_alloc leaves the unloading of a captured result counts as stopped there", "why_tests_cant": "no test makes an allocation fail; a test with a failing allocator sees a few of all combinations of failing allocations and programs", "anchors": ["include/boost/leaf/error.hpp:279-312", "include/boost/leaf/error.hpp:333-397", "include/boost/leaf/error.hpp:428-486", "include/boost/leaf/error.hpp:499-524", "include/boost/leaf/detail/capture_list.hpp:86-96", "include/boost/leaf/handle_errors.hpp:719-812"]}
{"id": "C67", "title": "The path an error takes through on_error objects", "statement": "When functions call each other, each with an on_error object whose function takes the same object by mutable reference (the error trace of example/error_trace.cpp), and the innermost call fails and the failure is forwarded: if a scope around them has storage for the object, each of the functions is called exactly once, from the innermost to the outermost, all for the same error and on the same object, and no other object changes; this also holds if the failure is an exception for which no error was started, which gets one new id from the innermost on_error. If nobody has storage for the object and nothing collects, no function is called and nothing is stored. If there is no error, nothing happens at all.", "quantifier": "all numbers of nested calls, all functions, all failing programs (results or exceptions), all states and configurations, what the callers do on success is arbitrary", "why_tests_cant": "tests and examples have fixed depths (at most 5) and a few functions; the count and order for all depths and all failing callees needs induction", "anchors": ["include/boost/leaf/on_error.hpp:30-47", "include/boost/leaf/on_error.hpp:166-198", "include/boost/leaf/error.hpp:345-397", "include/boost/leaf/error.hpp:460-486", "example/error_trace.cpp:48-125", "example/error_log.cpp:52-105"]}
{"id": "C68", "title": "The example programs handle every failure where they say", "statement": "The programs in /repo/example do what their comments say whatever the files, the Lua interpreter and the tasks do: print_file (its three variants: leaf::result, boost::system::result, exceptions) calls the handler documented for each failure, with the error code, errno and file name of that failure, and its last handler is never called; print_half handles strings that are too long itself and leaves the other errors to main; lua_callback_result receives its own error and Lua's together, or Lua's only; exception_to_result hands error_a and error_b to their handlers and anything else as std::exception_ptr; the try_capture_all examples receive all objects of a task that failed in another thread.", "quantifier": "all outcomes of the calls the programs make, all values of errno, file names, messages, numbers and error objects; builds with and without capturing, diagnostics, assertions, and (for those that do not throw) exceptions", "why_tests_cant": "the examples are not run by tests with failing files or tasks; each failure at each place with each value of errno would have to be provoked", "anchors": ["example/print_file/print_file_leaf_result.cpp:54-204", "example/print_file/print_file_system_result.cpp:62-212", "example/print_file/print_file_exceptions.cpp:50-198", "example/print_half.cpp:23-98", "example/lua_callback_result.cpp:50-157", "example/exception_to_result.cpp:14-110", "example/try_capture_all_result.cpp:44-102", "example/try_capture_all_exceptions.cpp:44-100"]}
{"id": "C69", "title": "The implementations of thread local storage behave alike", "statement": "With thread_local variables (default), with the pointers FreeRTOS keeps per task (BOOST_LEAF_TLS_FREERTOS), and, in programs of one thread, with globals (BOOST_LEAF_NO_THREADS), each read of a pointer or number kept per thread returns what that thread last wrote for that very type, null or zero if it never wrote: as with BOOST_LEAF_USE_TLS_ARRAY (C34).", "quantifier": "all interleavings of reads and writes by any number of threads over any number of types; for globals: all sequences of one thread", "why_tests_cant": "all schedules; FreeRTOS is not among the platforms tested", "anchors": ["include/boost/leaf/config/tls_cpp11.hpp: read_ptr, write_ptr, read_uint, write_uint", "include/boost/leaf/config/tls_globals.hpp: read_ptr, write_ptr, read_uint, write_uint", "include/boost/leaf/config/tls_freertos.hpp: read_void_ptr, write_void_ptr"]}
{"id": "C70", "title": "A build has the settings the user chose and the documented defaults, or is rejected", "statement": "For any macros defined by the user and the compiler: config.hpp accepts the build exactly if every BOOST_LEAF_CFG_ switch is 0 or 1 and what needs std::string is off when std::string is off (documentation: switching std::string off requires switching diagnostics off). An accepted build has the user's choices, and for the others the documented defaults (those of BOOST_LEAF_EMBEDDED if it or BOOST_LEAF_TLS_FREERTOS is defined). Exceptions are off exactly if the user or the compiler says so. Exactly one implementation of thread local storage is used, and settings that only concern the array are reported as ignored exactly if there is no array. Writing out all the settings gives the same build. Capturing, diagnostics and exceptions can be chosen independently.", "quantifier": "all assignments of values to the macros that config.hpp and config/tls.hpp read", "why_tests_cant": "the tests are compiled in some ten configurations; there are unboundedly many combinations of macros and values, and a rejected build is not a test", "anchors": ["include/boost/leaf/config.hpp:8-212", "include/boost/leaf/config/tls.hpp:8-30", "include/boost/leaf/config/tls_freertos.hpp:17-23", "include/boost/leaf/config/tls_array.hpp:34-40", "doc/leaf.adoc:5531-5608"]}
