# Design: a Rocq model of Boost.LEAF

Source: `/repo/include/boost/leaf` at the pinned commit. Line numbers in comments of the Coq files refer to it.

## 1. What is modelled and how

Three layers share one program language.

* **Pointer machine** (`Mem.v`, the model of the code). One thread's memory as LEAF sees it: `slot<E>` objects
  (key, value, `prev_` pointer), `slot<dynamic_allocator>` objects with their lists of heap nodes, the
  `thread_local` top pointers, context objects. Functions follow `error.hpp`, `context.hpp`, `detail/optional.hpp`,
  `detail/capture_list.hpp` one by one. Dereferencing an address that is not (or no longer) allocated is the outcome
  `Fail UAF`; a failing `BOOST_LEAF_ASSERT` is `Fail Assert` when assertions are on, and is skipped when they are off (`NDEBUG`).
* **Stack machine** (`Stack.v`, the specification). No pointers: a list of active contexts, every context maps types
  to (id, object), a load goes to the innermost context having the type.
* **Program language and interpreter** (`Prog.v`, `Interp.v`). Programs are well-founded trees with Coq functions as
  continuations (so a program is any deterministic user code over the API), covering `new_error`, `load`, `throw_exception`,
  plain `throw`, `throw;`, plain `catch`, `on_error`, `error_monitor`, `current_error`, `try_handle_all/some`, `try_catch`, `try_capture_all`,
  `result::unload/value/error`, `exception_to_result`, context objects with activation scopes, `context::unload/handle_error`.
  The interpreter is written once over a record of primitives and instantiated with both machines.

The refinement theorem (pointer machine = stack machine on every program, as long as the stack machine does not
fail) is C48; program-level properties are proved on the stack machine by induction on programs and carried over to the pointer
machine, or proved directly about the pointer machine's functions.

Concurrency: apart from context and result objects handed from one thread to another, the only mutable object shared by threads is the atomic id counter (`error.hpp:536`);
everything else is `thread_local`.
The interpreter takes the ids a thread is assigned from a supply; `Threads.v` models the counter, schedules, and derives each thread's supply.

Smaller independent models: ids and result discriminants (`Ids.v`), keyed optional with lifetimes (`Optional.v`),
result objects with lifetimes (`ResultObj.v`), capture lists as linked nodes (`CapList.v`), movable on_error objects (`OnErrorObj.v`),
array-based TLS (`TlsArray.v`), the other implementations of TLS (`TlsOther.v`), type lists / index sequences (`Mp11.v`), predicates (`Pred.v`), type-name parsing (`Demangle.v`),
diagnostics printing (`Print.v`), macros and functions defined in terms of others (`Derived.v`: BOOST_LEAF_CHECK, to_variant and others),
builds without exceptions (`NoExcept.v`), functions, objects and handler parameters told apart by type (`Traits.v`), printing of system errors (`LastError.v`), the memory of all threads together with contexts passed between them (`Share.v`, over the functions of `Mem.v`).

Files by role:

* models of the code: `Prog Mp11 Mem Interp Ids Optional CapList ResultObj OnErrorObj TlsArray TlsOther Demangle Pred Threads Derived Print NoExcept Share Traits LastError Unwind ResultThrow Oom`;
* specification of storage: `Stack`;
* pointer machine = stack machine: `SimBase SimOps SimLoad SimCtx Sim PropsSim`;
* program-independent facts about runs of the stack machine: `Wb` (runs are well-bracketed sequences of atomic changes), `Frame` (what a run cannot change),
  `Recv` (unloading), `Scope`/`Try` (a scope as a sequence of phases), `Glob` (the current id), `Load`, `Local`/`LocalN` (dependence on ids), `Rename` (replacing ids everywhere), `Own` (ids not known), `Safe` (no failure);
* `Invariant`: invariants of the operations of a machine are invariants of its programs;
* `Morph`: machines whose operations agree run all programs alike;
* `View`: what the properties talk about (objects held by / visible in a context of the pointer machine);
* `RepoExamples`: the programs in /repo/example with arbitrary outcomes of the calls they make (C68);
* `Props*`: the properties, each with concrete cases, and `Print Assumptions`;
* `RepoTests`: about 60 of the programs in /repo/test, run on the pointer machine, the stack machine and the interpreter for builds without exceptions, in 8
  configurations; the results are compared with the ones the tests expect. This is evidence that the models read the code correctly; no property uses it.

Properties about scopes are stated on the pointer machine. `held m c T` is the object context `c` keeps for type `T`, `usable`/`healthy m` says that the active
collecting contexts can take more objects; both are read off the memory and do not mention the stack machine. `R m s` occurs as a hypothesis only to say that `m` is a
reachable kind of memory; it holds initially (`R0`) and after every run (C48).

### Simplifications (what is not modelled)

* Error objects carry an integer payload (`VZ`), an error code, a source location or an exception pointer; copying and moving them
  does not fail in the program-level model (throwing copy constructors are covered in `Optional.v`). Memory allocation does not fail
  (except in `Oom.v`, C66).
* User functions passed as items are pure functions of their argument / of the events so far, and record one event when called.
* A handler that takes arguments by mutable reference or pointer (`HMut`) makes its assignments at the start of its body; the values assigned are a function of the
  arguments. Objects that are part of an exception object are not written to. The arguments seen by the rest of the body are the values before the assignments.
* `std::exception_ptr` holding a LEAF exception as an *error object* (only created by `exception_to_result`): when that stored pointer is the last owner, the
  destructor's effect on the current id is not modelled. For exceptions in flight and in `catch` it is.
* Destruction order inside a tuple, alignment, visibility, `constexpr`, ostream formatting details other than those in `Print.v`: not modelled. What FreeRTOS' own functions do (`TlsOther.v`) is taken from its documentation.
* `Traits.v` computes on types: C++17 or later, no arrays, no volatile objects. Whether the call of a function then compiles is not part of it.
* What Boost.Exception attached to an exception (`ABoost`) is a function of the exception object: the act of attaching it is not modelled.
* `release` (Interp.v): an exception object ends its life when the outermost handler for it ends; other `std::exception_ptr` copies are not counted.
* `exception_to_result`: the caught exception object is kept by the stored `exception_ptr`; its destruction is not modelled.
* In `Interp.v`, the assertion `!is_active()` of `context::handle_error` is left out where the preceding line deactivates the context (`NoExcept.v` has it).
* Threads: in `Threads.v` the memory of one thread is not reachable from another except by passing results (captured or not) and ids; it interleaves whole API calls that ask for an id,
  which then is the only access to shared memory. `Share.v` interleaves operations on contexts any thread can reach, each operation as one step: a context is used by one thread
  at a time, and threads that hand over a context are assumed to synchronise. The atomic counter is sequentially consistent (it is a single location).
* C++ typing: programs that would not compile (e.g. a `try_handle_all` handler returning an error) give `Fail IllTyped`.

## 2. Per property: model and proof method

| id | model | method |
|----|-------|--------|
| C01 | `Ids.v` counter mod 2^32, int conversion, bit operations | closed form of the counter after n generations, arithmetic |
| C02 | `Threads.v` schedules = lists of thread ids; atomic `+=4` | induction on schedules, injectivity of n -> 4n+1 mod 2^32 within the window; exact period |
| C03 | interpreter | induction on programs: invariant on current id; first part equational |
| C04 | interpreter | refuted with witness; true part: value is 1 exactly in these states |
| C05 | interpreter | induction on programs for "no new id implies unchanged" + equations |
| C06 | both machines | induction on the list of loads |
| C07 | both machines | equational, all states |
| C08 | stack machine by induction on programs, transferred by C48 | frame property: contexts hidden for T keep their T cell |
| C09 | both machines | induction over the context's cells |
| C10 | stack machine + transfer | corollary of C08 and equations of the interpreter |
| C11 | interpreter `evalH` vs. a declarative specification (`find` over flattened list) | induction on handler lists |
| C12 | interpreter | case analysis of all paths + C11 |
| C13 | interpreter | equational |
| C14 | stack machine by induction on programs; pointer machine by C48 | preservation of the stack |
| C15 | both machines (`Safe.v`) | progress by induction on programs which keep a set of rules, transferred by C48 (partial); refuted when any of three rules is dropped |
| C16 | interpreter | equational + machine lemma for order and no-overwrite |
| C17 | both machines | equational + induction on sequences |
| C18 | both machines | proved for `BOOST_LEAF_CFG_CAPTURE=0` and when a slot exists; refuted for the default configuration |
| C19 | interpreter, two threads' states | invariant over tasks with a single id; simulation of unload by loads |
| C20 | interpreter | refuted with witness; true when the first dynamically stored object is of the final error |
| C21 | interpreter | equational |
| C22 | interpreter | refuted with witness; true when no exception is being handled |
| C23 | `ResultObj.v` + `Ids.v`; interpreter for value() | induction on operation sequences; equations + machine lemma of unloading |
| C24 | interpreter | derived form; induction on chain length |
| C25 | interpreter | induction on nesting depth |
| C26 | interpreter | equational + witness |
| C27 | interpreter | refuted with witness; true when the current id is fresh at the throw |
| C28 | `Ids.v` + machine | equational |
| C29 | interpreter | first half proved, second refuted with witness |
| C30 | interpreter | induction on the type list |
| C31 | interpreter | derived form, equational |
| C32 | `Mp11.v` | induction on type lists |
| C33 | `Mp11.v` | strong induction (halving) |
| C34 | `TlsArray.v` | invariant over interleavings |
| C35 | `Pred.v` | induction on packs |
| C36 | `Demangle.v` | induction on strings; the formats are told apart within their text, and prefix and suffix cannot overlap, so only they are accepted |
| C37 | `Print.v` + machines | induction on contents |
| C38 | `Threads.v` + interpreter | induction on programs: eval depends only on the ids consumed |
| C39 | `Optional.v` | invariant over operation sequences |
| C40 | `ResultObj.v` | invariant over operation sequences; dereferencing an error asserts; self-move refuted |
| C41 | `CapList.v` | invariant (linked list segment) over operation sequences |
| C42 | `Ids.v` | arithmetic; refuted for the pair 1, -3 and true otherwise |
| C43 | `NoExcept.v`, a second interpreter | induction on programs; refuted for try_catch |
| C44 | `OnErrorObj.v` | induction on move chains; one id for all objects destroyed after each other |
| C45 | interpreter | equational |
| C46 | machines | equational; reuse after unload with diagnostic_details refuted |
| C47 | both machines | induction on chains the error passes through (partial); refuted in general by two witnesses |
| C48 | both machines + interpreter | simulation, induction on programs |
| C49 | both machines | induction on programs with the set of ids given to them |
| C50 | interpreter, both machines | chain of assignment and unload (partial: handlers which return the error); refuted by two witnesses |
| C51 | `Share.v`, the pointer machine with one set of `thread_local` pointers per thread | invariant over interleavings (partial: contexts without `diagnostic_details`; in debug builds not for all moves, refuted there) |
| C52 | the whole scope, from a state before it to the state after it, without the phases of the interpreter | composition of C09-C13, C19, C21, C45 with the simulation |
| C53 | `attached` (a predicate on the exception), handler lists without such arguments | from C11 and what `detect` hands to the handlers |
| C54 | two configurations of the pointer machine | relation between runs, induction on programs; arbitrary memories; both interpreters (`Config.v`, `MorphN.v`) |
| C55 | two configurations of the pointer machine; `blind` (what handlers may depend on) | same induction (partial: without `diagnostic_details`), both interpreters (`Config.v`, `ConfigN.v`); refuted with it |
| C56 | two configurations of the stack machine, C48; `captureless`, `like` | states equal up to unwanted objects in contexts about to be destroyed (partial), also in builds without exceptions for programs that cannot throw; refuted twice |
| C57 | `Traits.v`: C++ types, `function_traits`, `load_item`, `deduce_item_type`; `callable`, `arg_type` | cases of types; exact characterisation of what is not recognised; refuted three times |
| C58 | `Traits.v`: `handler_argument_traits`; `means`, `mistaken`; `supply` and `takes_anything` of C11/C12 | cases of types, induction over the parameter list; refuted once |
| C59 | `LastError.v`; `ending` | cases on the last two characters; refuted for the message LF |
| C60 | `law`, `lawH`, `same` (`PropsLaws.v`): rules and their closure under every program constructor; any machine | induction over the rewriting; `C60_on_error_nested` from ids and `mload_ctxs`; two plausible rules refuted |
| C61 | `Unwind.v` (current id and exceptions in flight only, both variants of `check_id`); `vrun` | induction over programs with the number of uncaught exceptions as invariant; refuted for builds without `std::uncaught_exceptions` |
| C62 | `ResultThrow.v` on top of `ResultObj.v` | the invariant of C40 for steps that throw or terminate; which constructors are noexcept refutes the documentation |
| C63 | `Mem.v`, `Interp.v`, `NoExcept.v` | ownership invariant of the pointer machine, kept by every operation with no assumption on assertions, lifted to all programs by `Invariant.v`; the only hypothesis is that no identifier is zero |
| C64 | `Mem.v`, `Interp.v`, `NoExcept.v` | the counter of nodes ever allocated does not change; `Invariant.v` restricted to programs whose contexts collect nothing |
| C65 | `Mem.v`, `Interp.v`, `NoExcept.v`, `Threads.v` | a one-to-one replacement of ids commutes with every operation of the pointer machine and with both interpreters (`Rename.v`); any two supplies of distinct ids different from 1 are replacements of each other; refuted with id 1 |
| C66 | `Oom.v`, `Interp.v` | the pointer machine with an arbitrary set of failing allocations, compared with the one where none fails by a general theorem about two machines running the same program (`Morph.v`; `MorphN.v` for builds without exceptions); ownership as in C63; on_error against the stack machine |
| C67 | `Interp.v`, `Mem.v` | induction on the number of calls, each on_error by C17 (accumulating into the slot), the new id of an exception by the innermost on_error |
| C68 | `RepoExamples.v` (transcriptions of /repo/example), `Interp.v`, `NoExcept.v` | computation with symbolic values, one case per outcome of the calls and per configuration |
| C69 | `TlsOther.v` | induction on events; simulation of the array by the task's table |
| C70 | `Settings.v`: config.hpp and config/tls.hpp as data for an interpreter of preprocessor directives | effect of each group of directives on an arbitrary environment, composed; a sentence of the documentation refuted |

## 3. Trusted base

* The Coq 8.16.1 kernel. `Print Assumptions` is run for every theorem in the `Props*.v` files; see section 4 for the result.
* The model definitions (`Mem.v`, `Prog.v`, `Interp.v` and the smaller models listed in section 1) as a reading of the C++ text, with the simplifications above.
* The definitions in the statements: `Stack.v` for C48, `View.v`, and the specification part at the head of the other files.

Files with modelled functions (each definition cites its lines): `error.hpp`, `context.hpp`, `handle_errors.hpp`, `on_error.hpp`, `exception.hpp`, `result.hpp`,
`pred.hpp`, `diagnostics.hpp`, `to_variant.hpp`, `common.hpp` (printing of e_errno and e_LastError), `detail/function_traits.hpp`, `detail/optional.hpp`, `detail/capture_list.hpp`, `detail/mp11.hpp`, `detail/print.hpp`, `detail/demangle.hpp`,
`config/tls_array.hpp`, `config/tls_cpp11.hpp`, `config/tls_globals.hpp`, `config/tls_freertos.hpp` (in `Mem.v`: one variable per type and thread). A function of these files which no definition cites is not modelled.
`config.hpp` and `config/tls.hpp` are modelled in `Settings.v` except for what concerns inlining, visibility, attributes, `constexpr`, ref-qualifiers, delimiters, `__PRETTY_FUNCTION__` and the definition of `BOOST_LEAF_ASSERT`; elsewhere the settings are parameters. Not modelled at all: `detail/all.hpp` (only includes).

## 4. Axioms

`Print Assumptions` is run for every theorem of `MANIFEST.json` (229 commands in `Props*.v` and `RepoExamples.v`). Each answers "Closed under the global context": no axioms, neither own ones nor the standard library's.

## 5. What the code does not do (refuted statements and other findings)

A theorem named `…_refuted` is a witness. The others are consequences of the model which are not theorems by themselves; the place is given.

1. `try_capture_all` of a function returning void does not deactivate its slot when the function succeeds (handle_errors.hpp:788-789): the thread local pointer dangles. `C15_no_assertion_no_dangling_access_refuted`.
2. `dynamic_accumulate_` (error.hpp) with a key other than that of the collection destroys nodes which are still active. `C15_no_assertion_no_dangling_access_refuted`.
3. After unloading a `slot<dynamic_allocator>` the list's `last_` pointer dangles; the next object collected is written through it. `C15_no_assertion_no_dangling_access_refuted`, `C41_reuse_after_unload_refuted`, `C46_reactivated_refuted`.
4. `capturing_slot_node` whose object's copy throws is left half linked. `C41_throwing_copy_refuted`.
5. A collection is keyed by the error whose object was collected first. If `try_capture_all` reports another error, nothing that was collected is captured. `C20_captured_whole_refuted`.
6. `try_capture_all` does not capture objects for whose type a scope further out has storage; they stay in that scope.
7. `make_error_id(0)` has the value 1 and is true: `error_monitor::check()` and `current_error()` without an error. `C04_no_error_id_refuted`, `C04_check_without_error_refuted`; when the id counter has gone round (2^30 ids), 1 is also the id of an error, whose objects can be loaded in advance: `C49_new_error_has_no_objects_refuted`.
8. With capture configured and no scope collecting, a deferred function is called although its object is stored nowhere (error.hpp:452-465). `C18_deferred_refuted`.
9. A foreign exception is given the current id, which may be that of an error handled long ago: handlers see that error's objects. `C27_objects_of_earlier_errors_refuted`.
10. `try_capture_all` run in a catch block, of a function that returns a failure: the unrelated exception being handled is captured, and thrown by unloading. `C22_result_failure_stays_refuted`.
11. A result of another library (category other than LEAF's) is taken for a new error by each scope it passes: objects loaded for it further in are not available further out. `C29_objects_of_third_party_failure_refuted`.
12. `error()` of a successful result, converted to another result, is a failure with id 0, which is read back as 1. `C23_error_of_success_refuted`.
13. Self-move assignment of a result reads a destroyed member. `C40_self_move_refuted`.
14. Ids 1 and -3 (both are issued) are printed alike. `C42_printed_refuted`.
15. `try_catch` whose block returns a failed result drops the objects its context holds; without exceptions, they reach the enclosing scope. `C43_try_catch_refuted`, `C47_every_object_available_or_listed_refuted`.
16. An error started in between replaces objects of an earlier error: an object can be neither available nor listed. `C47_every_object_available_or_listed_refuted`.
17. The id counter's period is 2^30: ids repeat after that. `C02_id_period`.
18. `on_error` loads its items for the last error started in its scope, also if that was handled there and the scope succeeds (first case of `C16_on_error`).
19. If a handler of `try_handle_some` throws, the scope's context is not unloaded (`ths_end` in `Interp.v`).
20. Unloading a scope whose handlers take `diagnostic_details` can make the unloaded error the current one (`tup_in` in `Glob.v`, hypothesis of `C03_current_error_changes`).
21. An exception that derives from `error_id` but not from `std::exception` is not identified by its id (`catch_info` in `Interp.v`).
22. An exception that carries an `error_id` of value 0 reaches `slot::unload(0)`, which asserts (error.hpp:411-426; `Safe.v` requires valid ids).
23. `context::print` and the printing of captured results start their first line without the delimiter (`Print.v`).
24. The array based TLS leaves one place unused and, with assertions off, writes out of range for the 256th type of an 8 bit index (example at the end of `PropsTls.v`).
25. A change made to an error object by a handler is lost when an enclosing scope already holds an object of this type for the same error (`C50_kept_by_caller_refuted`), against doc/leaf.adoc:432.
26. It is also lost when the handler passes the error on with `throw;`, in `try_handle_some` and in `try_catch`, where there is no other way (`C50_rethrown_refuted`; item 19).
27. Moving a context that is not active fails an assertion in debug builds if it was last activated inside a context with a slot of one of its types: `deactivate` does not reset `prev_`, and the move constructor of `slot` asserts that it is null (error.hpp:123-128; `C51_move_inactive_refuted`).
28. A handler that takes a `boost::error_info` is not called for an exception which carries it but does not derive from `std::exception` (`ex53_not_std`); `catch(boost::exception &)`, which doc/leaf.adoc:2115-2161 rewrites that way, catches it.
29. `BOOST_LEAF_CFG_CAPTURE` changes programs that do not use `try_capture_all`. `context::unload` with nobody to receive an object destroys it if the macro is 1 (error.hpp:424 moves it out of the slot before it is known whether anybody collects) and keeps it if the macro is 0; a second `unload` of the same context finds it only in the latter case (`C56_own_unload_refuted`). doc/leaf.adoc:5542 says that the macro disables `try_capture_all`.
30. A noexcept function passed to `load` or `new_error` by its name is not called: since C++17 noexcept is part of the type, `function_traits_impl<F&>` does not remove it, so the function counts as an error object and a pointer to it is stored (`C57_functions_refuted`). With `on_error` it does not compile.
31. The assertion "Error objects of pointer types are not allowed" (error.hpp:432) does not hold back lvalues: `std::is_pointer` of a reference is false (`C57_pointers_refuted`). A handler parameter `T *` asks for a `T`, not for such an object.
32. Passing a void function to `load` does not compile, against doc/leaf.adoc:3998 (`C57_void_refuted`).
33. The assertions "Handlers must take leaf::error_info arguments by const &" (context.hpp:59-61) let `error_info &` and `error_info const *` through, likewise for `diagnostic_info` and `diagnostic_details` (`C58_parameters_refuted`). The first waits for an object nobody loads; the second counts as always available, so the handler is called, with a null pointer. In most scopes such a handler still does not compile, because they need to move objects to the caller and the copy constructor of `error_info` is protected; `try_handle_all` without exceptions does not need that. The assertions "Bug in LEAF: context type deduction" (context.hpp:183) compare `error_info` with a `slot<>` and can never fail.
34. `operator<<` of `windows::e_LastError` reads before the start of the message if the message is a single LF (`C59_message_refuted`).
35. `on_error()` without items is not neutral: an exception which passes it starts a new error id (`C60_empty_on_error_refuted`).
36. Moving handlers of a scope to a scope around it changes more than the order: objects of types only the inner scope's handlers name are passed to the enclosing contexts although the outer scope handles the error, and there they replace objects of another error still to be reported (`C60_split_handlers_refuted`).
37. Before C++17 (`BOOST_LEAF_STD_UNCAUGHT_EXCEPTIONS` 0) an `on_error` in a function that a destructor calls during stack unwinding starts a new error and loads its items although the function succeeds (`C61_in_flight_refuted`). `Interp.v` models code that is not run by destructors during unwinding; there both variants of `check_id` agree with it (`C61_in_flight_partial`).
38. The documentation says that initializing a `result<T>` with a value may throw, and declares `result(U &&)` without `noexcept`. In the code the constructors taking several arguments or an argument of another type are `noexcept` (result.hpp:389, 409): if, say, `result<std::string>("literal")` cannot allocate memory, `std::terminate` is called instead of `std::bad_alloc` being thrown (`C62_value_constructors_refuted`). Conversely `result()` is documented `noexcept` and is not. Conversions between result types are `noexcept` too, although they convert values.
39. The documentation says that `BOOST_LEAF_CFG_STD_STRING=0` requires `BOOST_LEAF_CFG_DIAGNOSTICS=0` as well. That is not enough: config.hpp:102-104 also requires `BOOST_LEAF_CFG_STD_SYSTEM_ERROR=0`, which is 1 by default (`C70_string_off_refuted`).

## 6. Mutation tests

`seeded/LOG.jsonl` has one line per edit of a model in a scratch copy. Proofs that no longer go through are replaced one by one, so that the whole development is examined.

* `failed`: statements whose own proof script fails. This alone does not show that the statement is false of the edited model: a script can fail for other reasons.
* `failed_by_evaluation`: those of them which are examples proved by evaluation only. Such an example is false of the edited model.
* `claims_resting_on_failed_lemmas`: theorems of `MANIFEST.json` whose scripts go through but which use a statement that failed.
* `tightened`: theorems added or strengthened because of the edit.

The lines whose `mutation` begins with `auto_` come from a program making small edits (a comparison or constant changed, a condition negated, the result of one arm of a match replaced by another's) of every definition of the smaller model files. They are tried against the properties of that file only, and `failed` names the first statement whose proof fails. Edits nothing fails for have a `note` saying why: the definition is equivalent on what can occur, or the theorem named in `tightened` has been added.

An edit with an empty `failed_by_evaluation` is therefore weaker evidence than one where the list is not empty.
