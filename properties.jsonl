{"id": "C01", "title": "The handler tree behaves as a map from dotted paths to values", "statement": "After any history of tree[path]=value, del tree[path] and reads, tree[path] / tree.get(path) return exactly the value most recently stored under that dotted path and not deleted since, every other path is unaffected by a store or a deletion, and a rejected operation (bad key, None value, absent path) raises and changes nothing.", "quantifier": "every finite history of stores, deletions and reads over every dotted path (including '.') and every value", "why_tests_cant": "Deletion prunes empty branches by climbing through parents, so whether a deletion disturbs a neighbour depends on the shape left by the whole earlier history; a test fixes one history.", "anchors": ["polog/data_structures/trees/named_tree/tree.py: NamedTree.__setitem__, __getitem__, __delitem__, get, search_node, search_or_create_node, cut_empty_branch, get_converted_keys"]}
{"id": "C02", "title": "Iterating a handler tree yields each stored value exactly once, in breadth-first order, and len counts them", "statement": "iter(tree) yields exactly the values currently stored, each path's value once, ordered by depth of the path (shallower first), and len(tree) is the number of paths holding a value.", "quantifier": "every tree reachable by any history of stores and deletions", "why_tests_cant": "Ordering and multiplicity must hold for trees of every shape and depth, with and without empty inner nodes.", "anchors": ["polog/data_structures/trees/named_tree/tree.py: NamedTree.__iter__, __len__", "polog/data_structures/trees/named_tree/walker.py: TreeWalker.bfs, bfs_values, dfs"]}
{"id": "C03", "title": "Membership in a handler tree means some stored path goes through it", "statement": "'path in tree' (path not '.') holds exactly when a value is stored at that path or at some extension of it: deletions leave no empty garbage nodes. ('.' in tree is always true.)", "quantifier": "every history of stores and deletions, every path", "why_tests_cant": "Whether pruning removes all and only dead branches depends on the order of all earlier insertions and deletions.", "anchors": ["polog/data_structures/trees/named_tree/tree.py: NamedTree.__contains__, __delitem__, cut_empty_branch"]}
{"id": "C04", "title": "A projected local tree shares storage with the tree it was projected from", "statement": "After local = projection of a tree on some paths, a value stored or deleted in the source below a projected path (any extension of it) is visible under the same path in the local tree, for as long as that projected node has not been pruned from the source; paths outside the projection are not visible; and once the source prunes the node (its last value deleted) and the path is stored again, the local tree no longer follows it.", "quantifier": "every tree, every set of projected paths, every later history of stores and deletions on the source", "why_tests_cant": "The promise is about aliasing between two object graphs under arbitrary later mutation.", "anchors": ["polog/data_structures/trees/named_tree/projector.py: TreeProjector.on", "polog/data_structures/trees/named_tree/tree.py: NamedTree.put_node, cut_empty_branch"]}
{"id": "C05", "title": "Asking for handlers by name never removes or replaces registered handlers, and makes exactly the asked names' prefixes unregistrable", "statement": "config.get_handlers(*names) / a decorator's handlers=[names] leaves every registered handler and its path unchanged, but afterwards every asked name and each of its dotted prefixes counts as present, so registering a handler later under one of these exact names raises NameError although nothing is stored there.", "quantifier": "every registry state and every sequence of valid names", "why_tests_cant": "A read-only looking call mutates shared state; the effect only shows in a later unrelated call.", "anchors": ["polog/data_structures/trees/named_tree/projector.py: TreeProjector.on", "polog/config.py: config.get_handlers, set_handler", "polog/loggers/auto/function_logger.py: FunctionLogger.get_handlers"]}
{"id": "C06", "title": "A rejected configuration change leaves the setting as it was; an accepted one stores the converted value", "statement": "For every setting and every value, config.set either raises and leaves that setting and all other settings unchanged, or succeeds and afterwards the setting reads as the (converted) value with all other settings unchanged. With several keyword arguments the ones before the first rejected one stay applied and the later ones are not.", "quantifier": "every settings state, every setting name, every value, every keyword sequence", "why_tests_cant": "There are dozens of interacting points with converters, conflicts, one-shot rules and actions; tests sample pairs.", "anchors": ["polog/core/stores/settings/setting_point.py: SettingPoint.set, prove_value, prove_conflicts", "polog/core/stores/settings/settings_store.py: SettingsStore.points, __setitem__", "polog/config.py: config.set"]}
{"id": "C07", "title": "Cross-setting consistency is never violated", "statement": "In every reachable configuration max_queue_size is 0 whenever pool_size is 0, and logging_off is False whenever integration_with_logging is False.", "quantifier": "every finite sequence of accepted and rejected config.set calls, in any order", "why_tests_cant": "The invariant spans two settings with separate checks; all interleaved orders of changes matter.", "anchors": ["polog/core/stores/settings/settings_store.py: points pool_size, max_queue_size, integration_with_logging, logging_off", "polog/core/stores/settings/setting_point.py: prove_conflicts"]}
{"id": "C08", "title": "'started' flips to True at most once and never back", "statement": "Once the first record has been written the 'started' setting stays True for ever; any further attempt to set it raises DoubleSettingError, and it can never be set to False.", "quantifier": "every sequence of configuration changes and first writes", "why_tests_cant": "A claim about all future histories.", "anchors": ["polog/core/stores/settings/settings_store.py: point started", "polog/core/stores/settings/setting_point.py: SettingPoint.set"]}
{"id": "C09", "title": "Every setting always holds a legal value", "statement": "In every reachable configuration each setting satisfies its documented range: pool_size and max_queue_size are integers >= 0, level / default_level / default_error_level are non-negative integers (never names), time_quant > 0, delay_on_exit_loop_iteration_in_quants > 0, max_delay_before_exit >= 0, service_name is None or an identifier, flags are booleans. As everywhere in Python a bool counts as an integer.", "quantifier": "every history of config.set and level registrations, every value of every Python type", "why_tests_cant": "Validation precedes conversion, so legality of what is stored depends on both for all inputs (bools, floats, names of levels).", "anchors": ["polog/core/stores/settings/settings_store.py: SettingsStore.points", "polog/core/stores/levels.py: Levels.get"]}
{"id": "C10", "title": "Level names: look-up returns the last number registered for the name; the reverse name is the last name given to that number", "statement": "After any sequence of level registrations Levels.get(name) is the number last given to that name (KeyError if none), numbers map to themselves if they are true non-negative ints, and get_level_name(n) is the last name registered with number n or str(n). get(get_level_name(n)) = n holds exactly for those numbers whose displayed name was not later re-registered with another number (and fails otherwise).", "quantifier": "every sequence of registrations, every key and number", "why_tests_cant": "Two dictionaries are kept in step only partially; divergence needs particular re-registration histories.", "anchors": ["polog/core/stores/levels.py: Levels.set, get, get_level_name, get_all_names", "polog/config.py: config.levels, standard_levels"]}
{"id": "C11", "title": "Every handler attached to a record is called exactly once, in order, whatever other handlers do", "statement": "When a record is executed, each attached handler is invoked exactly once in collection order, with all extra fields already extracted, even if any subset of the handlers or field extractors raises; nothing propagates out.", "quantifier": "every list of handlers and fields with every raising behaviour", "why_tests_cant": "All subsets and positions of failing handlers.", "anchors": ["polog/core/log_item.py: LogItem.__call__, call_handlers, call_one_handler, extract_extra_fields_from", "polog/core/utils/exception_escaping.py"]}
{"id": "C12", "title": "Records are totally ordered by time, consistently across operators and hashing", "statement": "For records that have a time, ==, !=, <, <=, >, >= agree with the time order (trichotomy, transitivity, antisymmetry up to ==), equal records have equal hashes; if a time is missing or the other operand is not a record, ordering operators raise TypeError, == is False and != is True (so == is not reflexive for a record without time).", "quantifier": "all pairs and triples of records and non-records", "why_tests_cant": "Algebraic laws over all operands.", "anchors": ["polog/core/log_item.py: LogItem.__eq__, __ne__, __lt__, __gt__, __le__, __ge__, __hash__, compare, compare_or_raise"]}
{"id": "C13", "title": "Extra fields never overwrite record data unless field intersection is enabled, and a failing extractor affects only itself", "statement": "After extraction of extra fields, every field the record already had keeps its value when fields_intersection is off; each new field whose extractor succeeds is present with the extracted value; a raising extractor leaves the record exactly as if the field were not registered (as far as the extractors' results are independent of it).", "quantifier": "every record, every ordered collection of extractors, both settings of fields_intersection", "why_tests_cant": "All combinations of name collisions, orders and failures.", "anchors": ["polog/core/log_item.py: LogItem.extract_extra_fields_from", "polog/data_structures/wrappers/fields_container/container.py"]}
{"id": "C14", "title": "No record is handled twice: every accepted record is handled at most once and never invented", "statement": "In multi-threaded mode, in any interleaving of writers, workers, reloads and shutdown, every record handed to handlers was written, no record is executed twice, and when write returns the record has been handed over to an engine (none is silently dropped).", "quantifier": "every interleaving, number of workers, queue bound, number of writers and reloads", "why_tests_cant": "Schedules are unbounded; tests see a few.", "anchors": ["polog/core/engine/engine.py: Engine.write, reload", "polog/core/engine/real_engines/multithreaded/pool.py: ThreadPool", "polog/core/engine/real_engines/multithreaded/worker.py: Worker.run"]}
{"id": "C15", "title": "Stopping an engine flushes it", "statement": "If no record is put after the stop began, then when stopping a multi-threaded engine returns, every record put before has been completely executed and all workers have exited.", "quantifier": "every interleaving of workers with the stop sequence, every queue content, every number of workers >= 1", "why_tests_cant": "The window between queue-empty check, flag and join is schedule dependent.", "anchors": ["polog/core/engine/real_engines/multithreaded/pool.py: ThreadPool.stop, wait_empty_queue", "polog/core/engine/real_engines/multithreaded/worker.py: Worker.run, set_stop_flag, stop"]}
{"id": "C16", "title": "Record order: synchronous engine and one-worker engine preserve put order; dequeue order is always put order", "statement": "With pool_size 0 a record has been executed when write returns; with one worker records are executed in the order they were put; with any number of workers the order in which execution starts is a prefix-consistent FIFO order of the puts.", "quantifier": "every interleaving, every number of records", "why_tests_cant": "Order under all schedules.", "anchors": ["polog/core/engine/real_engines/singlethreaded/engine.py", "polog/core/engine/real_engines/multithreaded/worker.py: Worker.run", "polog/core/engine/real_engines/multithreaded/pool.py: ThreadPool.put"]}
{"id": "C17", "title": "The queue never exceeds max_queue_size", "statement": "With max_queue_size = n > 0 the queue of waiting records never holds more than n records and at most pool_size records are in execution; with 0 it is unbounded. However many threads change the two settings while others write, each setting always has its first value or one that somebody asked for that very setting, an assignment changes its own setting to what was asked unless that would give a bounded queue without workers (then nothing changes), and such a pair never exists.", "quantifier": "every interleaving and every history of reloads", "why_tests_cant": "All schedules.", "anchors": ["polog/core/engine/real_engines/multithreaded/pool.py: ThreadPool.__init__, put", "polog/core/engine/real_engines/multithreaded/worker.py"]}
{"id": "C18", "title": "Reloading the engine loses no record, provided no writer is caught between choosing the engine and putting", "statement": "When pool_size or max_queue_size is changed while running, every record handed over to the multi-threaded engine in use before its stop began has been executed when its successor is loaded, and a record whose write starts after that stop began never goes to the old engine; but a writer that has already selected the old engine when the reload begins can put its record on the stopped engine's queue, where it is never executed, and if that queue is bounded and full the writer waits for ever (so the unconditional 'no record is lost' and 'every write returns' are false).", "quantifier": "every interleaving of writers, workers and reloads", "why_tests_cant": "The loss needs a three-way race that tests practically never hit.", "anchors": ["polog/core/engine/engine.py: Engine.reload, block, unlock, _new_write, _blocked_write"]}
{"id": "C19", "title": "First write initialises exactly once; it can deadlock with a configuration change, and with nothing else", "statement": "In any interleaving of any number of first writes and of pool_size/max_queue_size changes the engine is initialised at most once, and exactly once before any record is passed to it, and no write raises. If handlers do not log and nobody sets 'started' by hand, then from every reachable state either all threads can be brought to their end with everything executed that was not handed to a stopped engine (C18), or the state is the deadly embrace in which the first write holds the engine lock and waits for the settings lock while a pool_size/max_queue_size change holds the settings lock and waits for the engine lock. That embrace is reachable (so 'cannot deadlock' is false) and permanent, but impossible once the engine has been started or if nobody changes those settings.", "quantifier": "every interleaving of any number of threads", "why_tests_cant": "Lock-order deadlocks are schedule dependent.", "anchors": ["polog/core/engine/engine.py: Engine.write, __second_init__, reload, block", "polog/core/stores/settings/setting_point.py: SettingPoint.set"]}
{"id": "C20", "title": "Shutdown hook: everything queued is executed before exit unless the time limit fires; writes after the hook never return", "statement": "When the exit hook completes without hitting max_delay_before_exit, every multi-threaded engine instance has been stopped and every record handed over to the one in use before the hook blocked writing has been executed; a record whose write begins after the hook blocked writing is never handed over, and that write neither returns nor raises (the engine lock is never released).", "quantifier": "every interleaving of hook, writers and workers", "why_tests_cant": "Process-exit races cannot be sampled meaningfully.", "anchors": ["polog/core/engine/engine.py: Engine.atexit_register, block, stop", "polog/core/utils/time_limit.py"]}
{"id": "C21", "title": "A handler that logs can deadlock a reload", "statement": "In multi-threaded mode, if a handler itself writes a record, there is a reachable state in which the reload waits for the worker and the worker waits for the reload, from which no step can ever be taken by either; without logging handlers no such state is reachable.", "quantifier": "every interleaving", "why_tests_cant": "A deadlock reachable only in a narrow schedule; the negative half is about all schedules.", "anchors": ["polog/core/engine/engine.py: _blocked_write, reload", "polog/core/engine/real_engines/multithreaded/pool.py: ThreadPool.stop"]}
{"id": "C22", "title": "However many logging decorators are stacked, one call writes at most one record", "statement": "For any stack of @log, class-decorator (method) logging and @unlog applied one after another to a function, the result carries at most one logging layer, hence one call writes at most one record; if no @unlog occurs, that layer is the last explicit @log, or, when there is none, the last class decoration. The claim fails when a wrapper is used as the original of two different stacks, and when a class decorator with a methods list re-decorates (its priority rule then strips an explicit decorator).", "quantifier": "every finite sequence of decorations", "why_tests_cant": "Stacks of every length and order.", "anchors": ["polog/core/stores/registering_functions.py: RegisteringFunctions.get_function_or_wrapper, add, remove, get_original", "polog/loggers/auto/function_logger.py: FunctionLogger.__call__", "polog/loggers/auto/class_logger.py"]}
{"id": "C23", "title": "@unlog wins in any position", "statement": "For any finite stack of @log, class decoration and @unlog containing at least one @unlog, the result has no logging layer (so a call writes no automatic record of its own) and, if it is an unlog wrapper, carries the full flag of the last @unlog; a later @log over @unlog returns the bare original so that a full flag is lost. It fails when an unlogged wrapper is shared between two stacks.", "quantifier": "every finite sequence of decorations containing an unlog", "why_tests_cant": "All positions and repetitions.", "anchors": ["polog/unlog.py", "polog/core/stores/registering_functions.py: forbid, is_forbidden, get_function_or_wrapper"]}
{"id": "C24", "title": "Dynamic scope of full unlog", "statement": "While a function decorated with full @unlog runs (full=True, or full unset with the setting full_unlog on and unchanged), no record of any kind is written until a nested unlogged call returns or an unlogged call with a different order begins; whether logging is off is decided by the last beginning or end of an unlogged call alone, and after any unlogged call returns logging is on, even inside an outer unlogged call; @unlog(full=False) changes nothing for what is called inside. The documented 'everything inside is silent' is refuted.", "quantifier": "every call tree of logged, unlogged and plain functions", "why_tests_cant": "Needs all nestings of calls.", "anchors": ["polog/unlog.py: unlog_function, set_unlogged, get_unlog_status"]}
{"id": "C25", "title": "Automatic logging is transparent to the caller", "statement": "Any program returns or raises the same with its functions decorated and without (a suppressed exception becomes None), provided the levels given by name stay registered and the conversions of results, arguments and exceptions to text do not fail; for a single call the outcome differs only if logging is on and the level is not usable (KeyError), or json conversion of the result or arguments, or str() of the exception fails.", "quantifier": "every outcome of the wrapped function, every configuration", "why_tests_cant": "All outcomes x configurations.", "anchors": ["polog/loggers/auto/function_logger.py: FunctionLogger.__call__, log_normal_info, log_exception_info, resolve_normal_level", "polog/core/utils/exception_is_suppressed.py"]}
{"id": "C26", "title": "A record is written exactly when its level reaches the threshold", "statement": "A successful call writes its record iff logging is on and its level (the decorator's, else default_level) >= settings level; a failing call iff logging is on, the exception was not already taken care of (with deduplication on) and the error level >= settings level; one call never writes two records. A level given by message() is written into the record but takes no part in the decision.", "quantifier": "all levels, names of levels, thresholds, message edits", "why_tests_cant": "All combinations of four sources of level.", "anchors": ["polog/loggers/auto/function_logger.py: log_normal_info, log_exception_info", "polog/core/utils/get_errors_level.py"]}
{"id": "C27", "title": "An exception propagating through nested logged functions is logged once", "statement": "With deduplicate_errors on, one exception object gets at most one error record in any program; when it propagates through any number of nested decorated functions the innermost writes exactly one record if its error level passes, otherwise no one writes any; with deduplication off exactly the functions whose error level passes write it.", "quantifier": "every nesting depth and every assignment of levels", "why_tests_cant": "All depths and all level assignments.", "anchors": ["polog/loggers/auto/function_logger.py: log_exception_info"]}
{"id": "C28", "title": "message() edits the record of the innermost running logged call and only it", "statement": "The record of a call consists of its automatic fields overlaid (except input_variables) by the fields of the last message() since the last beginning of a logged call or the last record of a call; manual and with-block records ignore message(). Hence edits are erased by a nested logged call, leak from a nested call that wrote no record into the outer one, and a second message() replaces the first.", "quantifier": "every call tree and placement of message() calls", "why_tests_cant": "All nestings and placements.", "anchors": ["polog/loggers/handle/message.py", "polog/loggers/auto/function_logger.py: FunctionLogger.__call__ (_clean_context)"]}
{"id": "C29", "title": "suppress(): exactly the listed exceptions are swallowed", "statement": "A decorated function swallows an exception iff it is an Exception and suppress-all is set or its class is listed (transitive subclass with suppress_exception_subclasses, exactly otherwise); a with-block iff suppress-all, or listed, or nothing is listed and suppress_by_default - including exceptions outside Exception, which refutes 'BaseExceptions never'. suppress() without arguments means all; an argument that is not an exception class raises ValueError and adds nothing, or is skipped in silent mode.", "quantifier": "every class hierarchy, every list", "why_tests_cant": "All hierarchies.", "anchors": ["polog/core/utils/exception_is_suppressed.py", "polog/loggers/finalizer.py: suppress, __exit__", "polog/loggers/auto/function_logger.py"]}
{"id": "C30", "title": "handlers= and extra_fields= of a decorator: paths follow the global handlers, objects are added, Ellipsis adds the default fields", "statement": "A decorator created with handlers=<list or tuple of handlers and paths> delivers every record once to each of its own objects and to each handler that the global tree holds, at that moment, at or below one of the paths (as long as no deletion empties the path), and to nothing else, whatever other decorators and handlers are added later; the names invented for the objects are new; the global tree is never changed by decorating. A non-collection is refused with ValueError, an object that is no handler with HandlerNotFoundError, an invalid path with KeyError, '.' with ValueError; everything else is accepted while names last. extra_fields is accepted iff it is None, or dictionaries (one, or a list or tuple of them, a list may contain Ellipsis) with string keys, field objects as values and no name twice; the fields of a record are then the decorator's own, in order, plus, exactly for None and for a list with an Ellipsis, the current defaults whose names are not taken. Refused with ValueError, or AttributeError for elements that are no dictionaries and for an Ellipsis in a tuple. The user's list loses its Ellipses, so the same list (one decorator object put on two functions) means something else the second time: refuted that it does not.", "quantifier": "every history of changes of the global tree and of created decorators before and after, every argument, every supply of names", "why_tests_cant": "All lists.", "anchors": ["polog/loggers/auto/function_logger.py: get_handlers, get_extra_fields", "polog/data_structures/wrappers/fields_container/container.py", "polog/data_structures/trees/named_tree/projector.py"]}
{"id": "C31", "title": "with log(...) as context manager nests properly", "statement": "In any program whose 'with log.suppress(...)' arguments are exception classes, the exit of each block finalises exactly the object that block entered and restores the stack, each block writes at most one record, an object can be entered once. If 'with log.suppress(x)' fails on its argument in loud mode, its object stays on the stack, and the enclosing block then finalises it instead of its own.", "quantifier": "every well nested sequence of enters and exits", "why_tests_cant": "All nestings.", "anchors": ["polog/loggers/router.py: __enter__, __exit__", "polog/loggers/partial.py: __enter__", "polog/loggers/finalizer.py: __enter__, __exit__"]}
{"id": "C32", "title": "A context-manager block writes exactly one record with the right success flag, and swallows an exception only if suppressed", "statement": "Leaving a with-block writes one record iff its level (given, else default_level or default_error_level by the outcome) >= settings level and logging is on; success is True without exception, False with the exception's name, text and traceback otherwise (a success given by the user is overwritten); the exception leaves the block iff it is not suppressed; if building the record fails, that internal error leaves the block instead and nothing is written. In silent mode it does not fail for distinct fields and existing levels.", "quantifier": "every outcome of the block, every suppression configuration", "why_tests_cant": "All outcomes and configurations.", "anchors": ["polog/loggers/finalizer.py: __exit__, convert_arguments_to_dict, rewrite_fields, suppress"]}
{"id": "C33", "title": "Dotted levels and keyword arguments", "statement": "log.<level>(..., level=x) uses the dotted level, not the keyword (the docstring says otherwise); every name that is not a method of the router is accepted; with an unregistered name a manual call writes nothing and raises nothing, even in loud mode, while 'with log.<name>:' raises when the block ends.", "quantifier": "every level name and keyword set", "why_tests_cant": "Precedence over all argument sets.", "anchors": ["polog/loggers/partial.py", "polog/loggers/router.py: __getattribute__"]}
{"id": "C34", "title": "Manual records: field aliases, types and silent mode", "statement": "log(message, **fields): if no two arguments mean the same field and the levels are resolvable, the record gets exactly the accepted arguments under their canonical names in converted form; outside silent_internal_exceptions a wrong type, an unknown field (unless allowed) or a second positional argument raises, in silent mode it is ignored; the only exception that can escape in silent mode is KeyError, and it does for an unregistered level and for two aliases of one field; exception=A, e=B silently keeps B while e=B, exception=A raises. The first positional argument is not type checked.", "quantifier": "every set of keyword arguments of every type and every setting combination", "why_tests_cant": "All argument sets.", "anchors": ["polog/loggers/handle/abstract.py: _kwargs_to_dict, _position_args_to_dict, _maybe_raise, _extract_exception"]}
{"id": "C35", "title": "Manual record level defaulting", "statement": "A manual record has the level given, or default_error_level if an exception or success=False was given, or default_level; it is written iff that level >= settings level and unlog is not in force; giving an exception forces success=False and fills its class name, text and traceback.", "quantifier": "every field set and configuration", "why_tests_cant": "All combinations.", "anchors": ["polog/loggers/handle/handle_log.py"]}
{"id": "C36", "title": "Smart assert", "statement": "log.assert-style call (expression, message): a true expression does nothing in every mode. A false one raises AssertionError exactly in debug mode and writes records carrying the message (the second argument, else the text of the expression, else a fixed text): one outside debug mode; in debug mode one with the politic 'if_debug' and two with 'all'. An expression whose truth value cannot be taken writes one record and raises AssertionError in debug mode and does nothing outside it. Outside debug mode no exception leaves the call, whatever writing does; too many arguments raise TypeError in loud mode only, before anything is done. Refuted: that in debug mode it behaves exactly as the assert statement (it also writes), and that a failed assertion writes at most one record.", "quantifier": "every expression result, debug mode, politic", "why_tests_cant": "Decision table must hold for all.", "anchors": ["polog/loggers/handle/smart_assert.py", "polog/core/stores/settings/settings_store.py: point smart_assert_politic"]}
{"id": "C37", "title": "Handler filtering (only_errors / filter / alt)", "statement": "A BaseHandler with only_errors skips records of successes; its filter refuses a record only by answering exactly False (0 or None do not refuse); otherwise it builds the content and acts. The alternative runs, on the same record, exactly when the record was skipped, refused, or building or acting failed; if the filter itself raises, nothing runs and the exception leaves the call. In a chain of alternatives the record is dealt with by the first handler that accepts it and does not fail. 'Never both' is refuted: an action that fails half way is followed by the alternative. The constructor accepts exactly a bool and callables of the right signature, otherwise ValueError.", "quantifier": "every record and every combination of only_errors, filter result and alt", "why_tests_cant": "Complete decision table for arbitrary predicates.", "anchors": ["polog/handlers/abstract/base.py: BaseHandler.__call__, run_filter, run_alt"]}
{"id": "C38", "title": "Memory handler stores everything in order", "statement": "For any interleaving of threads that store, clean and construct, there is one order of their operations, agreeing with each thread's order, such that memory_saver.all is the list of the records stored since the last clean in this order; whenever nobody is inside the handler, last is the last element of all or None; no deadlock; a list taken earlier from all only grows while it is the current one and never changes after a clean. Between the two assignments last lags behind all, and the first construction by two threads at once can lose a record.", "quantifier": "every history of records, reads and cleans", "why_tests_cant": "All histories.", "anchors": ["polog/handlers/memory/saver.py"]}
{"id": "C39", "title": "Rotation loses and duplicates no byte", "statement": "For any number of threads, of any number of handlers of the same file (in one or several processes), with or without locks, any rotation decisions, buffer flushes and failing moves, if rotated names are new and on the same file system: at any moment the rotated files in rotation order followed by the current file contain the old text and, of each handler, exactly what it accepted, in order, up to its unflushed buffer (for one handler: exactly old text, then everything accepted, in order); other files are untouched. With the thread lock, and if reopening succeeds, no record is refused; with forced_flush nothing stays in a buffer when nobody is in the middle of a record. Refuted: repeated names lose text; a destination on another file system loses the buffer; without the lock a record can find the file closed; a failed reopening makes every later record fail.", "quantifier": "every sequence of writes, every rotation rule, every buffering policy", "why_tests_cant": "All histories and sizes.", "anchors": ["polog/handlers/file/writer.py: do, maybe_rotation, maybe_flush", "polog/handlers/file/file_dependency_wrapper.py: write, flush, move_file, reopen", "polog/handlers/file/rotation/rotator.py: maybe_do, do"]}
{"id": "C40", "title": "Token patterns match like globs", "statement": "A pattern is a sequence of letters, each possibly followed by bracketed values. For every non-empty token list and every pattern with at least one element, check_regexp answers True iff the whole token sequence matches: a letter matches one token of that kind, '.' any one token, '[v]' fixes the source text, '*' any number of tokens, possibly none. The empty pattern matches everything. Text outside the grammar is a ValueError, except that an unclosed bracket is silently dropped with its letter; no tokens at all can be an IndexError.", "quantifier": "every pattern string and every token list", "why_tests_cant": "Recursive backtracking matcher over unbounded inputs.", "anchors": ["polog/handlers/file/rotation/rules/rules/tokenization/tokens/tokens_group.py: check_regexp, reduce_regexp, regexp_loop, parse_regexp"]}
{"id": "C41", "title": "Size rules: 'N unit' triggers exactly when the file has reached N units", "statement": "A rotation rule text made of a positive integer and a size unit is accepted and triggers iff file size >= N * unit; all spellings of a unit agree; anything else is rejected with ValueError.", "quantifier": "every rule text and every file size", "why_tests_cant": "All texts and sizes.", "anchors": ["polog/handlers/file/rotation/rules/rules/file_size_rule.py", "polog/handlers/file/rotation/rules/rules/tokenization/tokens/size_token.py", "polog/handlers/file/rotation/rules/rules_elector.py"]}
{"id": "C42", "title": "Double lock gives mutual exclusion between threads and processes", "statement": "In any interleaving: with a thread lock at most one thread of a handler is inside; with a file lock at most one handler is inside provided each handler is used by one thread; everyone who has begun to enter can get in and leave (no deadlock). With 'thread+file' and several threads per handler, two participants of different handlers (processes) can be inside at once, because leaving releases the thread lock first and then drops the file lock of the next thread of the same handler; with the other order of release the two locks would exclude everybody.", "quantifier": "every interleaving of any number of processes and threads", "why_tests_cant": "All schedules.", "anchors": ["polog/handlers/file/locks/double_lock.py", "polog/handlers/file/locks/thread_lock.py", "polog/handlers/file/locks/file_lock.py"]}
{"id": "C43", "title": "Lock specification parsing", "statement": "The lock argument denotes the set of named locks regardless of order and spaces; unknown or repeated names are rejected; None means no locks (and so does a bare '+').", "quantifier": "every string", "why_tests_cant": "All strings.", "anchors": ["polog/handlers/file/locks/double_lock.py: DoubleLock.get_lock_types"]}
{"id": "C44", "title": "Error level resolution", "statement": "An explicit valid error level is used as is; otherwise the error level is the maximum of default_level, default_error_level and the (valid) simple level, hence never below any of them.", "quantifier": "all level arguments", "why_tests_cant": "All numeric combinations and invalid names.", "anchors": ["polog/core/utils/get_errors_level.py"]}
{"id": "C45", "title": "Automatically generated handler names never repeat", "statement": "The generator of automatic handler names yields, for any shuffles of its tables, pairwise different names through all 4999 epochs of 74 names each, before and after replacing spaces by underscores; after that it raises IndexError. The roman numerals it uses are the usual ones (greedy subtractive notation) and read back as the number they were made from.", "quantifier": "every index", "why_tests_cant": "Hundreds of thousands of names; uniqueness across epochs.", "anchors": ["polog/core/utils/pony_names_generator.py"]}
{"id": "C46", "title": "Singleton creation race", "statement": "For one class made a read-only singleton and any interleaving of any number of threads: a thread creates at most one instance, only created instances are handed out, a creator is handed its own instance; once an instance was handed out and nobody is left inside the original constructor, one object is handed out for ever and nothing is created; a first request that completes before all others begin gives everyone its object. Refuted: that all requests get one object - overlapping first requests get different ones.", "quantifier": "every interleaving of any number of threads", "why_tests_cant": "Schedule dependent.", "anchors": ["polog/core/utils/read_only_singleton.py"]}
{"id": "C47", "title": "Signature matching", "statement": "SignatureMatcher.match answers True iff the definition has exactly as many plain parameters, exactly the given defaults, and *args and **kwargs exactly if asked for (keyword-only parameters without default are invisible to it); the order of the pattern does not matter; a non-callable or a mismatch raises ValueError or answers False by raise_exception. Every accepted handler without keyword-only parameters lacking a default can be called with one positional argument. Refuted: accepted implies callable, and callable implies accepted.", "quantifier": "every parameter list and every pattern", "why_tests_cant": "All signatures.", "anchors": ["polog/core/utils/signature_matcher.py"]}
{"id": "C48", "title": "Weak dictionary behaves as a map on live keys", "statement": "For any interleaving of operations, deaths of objects and death callbacks, the weak dictionary gives for a live key only the value last stored and still bound; when no callback is due it holds no entry of a dead key or value; if no key is stored again or deleted between the death of its value and the callback, it is exactly the map of bindings (get, item access, membership, keys, values, length, pop, del). Refuted: that this holds with interference (a late callback deletes a fresh entry), and that items() gives the stored pairs (it calls the values).", "quantifier": "every history of operations and object deaths", "why_tests_cant": "Histories including garbage collection at any point.", "anchors": ["polog/data_structures/wrappers/weak_linked/dictionary.py"]}
{"id": "C49", "title": "Handler registry: names are unique, deletion is exact", "statement": "config.add_handlers never replaces a handler registered earlier (NameError); after a successful call every handler given by name, in a dictionary or positionally is registered (the latter under a freshly generated name) and nothing else changed; a failing call leaves the arguments before the failing one registered; while no projection was taken, a valid handler is accepted under every valid name with nothing at or below it. delete_handlers(*names) removes exactly those handlers, delete_handlers(object) removes exactly one top-level registration of that object; a handler registered under a dotted path is not found by object; the same object can be registered twice by name though the documentation forbids it.", "quantifier": "every history of registrations and deletions", "why_tests_cant": "All histories.", "anchors": ["polog/config.py: add_handlers, set_handler, delete_handlers", "polog/core/stores/handlers.py"]}
{"id": "C50", "title": "Integration with the standard logging module", "statement": "With integration on, every record of the root logger with a level at or above the settings level gives one polog record with its message, level, time, function, module, success by level and exception data, and the record goes on to the standard handlers unless switched off; with it absent or refused by an earlier filter nothing is written; switching it on and off any number of times leaves at most one filter and all foreign ones. Refuted: that the integration never disturbs the caller (exc_info=True outside an except block, wrong message arguments, negative levels raise), and that records of named loggers are copied.", "quantifier": "every logging record and configuration", "why_tests_cant": "All levels and configurations.", "anchors": ["polog/core/stores/settings/actions/integration_with_logging.py"]}
{"id": "C51", "title": "Field container overlays defaults", "statement": "The field container reads as the overlay of its own fields on its defaults: membership, iteration and items agree, every name occurs once, own fields win, and a later change of the defaults is visible at once.", "quantifier": "every container content and history", "why_tests_cant": "Agreement of four views over all contents.", "anchors": ["polog/data_structures/wrappers/fields_container/container.py"]}
{"id": "C52", "title": "Time-of-work and field rendering in the file formatter", "statement": "Rendering of a duration: with a non-zero fraction the text reads as exactly the number, with no superfluous zeros at the end; a whole number not divisible by 10 is exact; a whole number of seconds divisible by 10 loses its trailing zeros and reads as a smaller number; zero gives no digits at all. So different durations can look the same, while those with a fraction never do.", "quantifier": "every duration", "why_tests_cant": "All numeric values.", "anchors": ["polog/handlers/file/base_formatter_fields_extractors.py: time_of_work"]}
{"id": "C53", "title": "A record reads as a dictionary and cannot be written", "statement": "A record answers look-up, get, membership, len, keys, values and items exactly like the dictionary of its fields, is empty before it is given data, and every attempt to store or delete an item raises RewritingLogError and changes nothing.", "quantifier": "every content of a record, every key and value", "why_tests_cant": "All contents; agreement of eight views.", "anchors": ["polog/core/log_item.py: LogItem.__getitem__, __setitem__, __delitem__, __contains__, __len__, get, keys, values, items"]}
{"id": "C54", "title": "Setting 'started' by hand before the first write disables writing", "statement": "If config.set(started=True) is done before the engine was initialised, then from then on, as long as nobody changes pool_size or max_queue_size, no record is ever handed over to any engine and no write ever returns (each raises or is still running); changing pool_size afterwards loads an engine and writing works again.", "quantifier": "every interleaving, every number of threads, every later execution", "why_tests_cant": "About all later executions.", "anchors": ["polog/core/engine/engine.py: Engine.write, __second_init__, reload", "polog/core/stores/settings/setting_point.py: SettingPoint.set"]}
{"id": "C55", "title": "The engine in use always matches the settings", "statement": "Engine instances are loaded one after another and only the last one is in use; whenever no change of pool_size/max_queue_size is between storing the value and loading the engine, the instance in use has exactly pool_size workers (none and synchronous execution if it is 0) and the queue bound max_queue_size.", "quantifier": "every interleaving of any number of writers and settings changes", "why_tests_cant": "A change may be refused by a conflict, may find the engine not started, or may race with the first write.", "anchors": ["polog/core/engine/engine.py: Engine.reload, load", "polog/core/engine/real_engines/fabric.py", "polog/core/stores/settings/actions/reload_engine.py"]}
{"id": "C56", "title": "Class decorators wrap exactly the chosen functions, once each", "statement": "Applying any stack of class logging / class unlogging decorators to a class leaves data attributes alone and turns each function into what the decorations added to its name make of that function alone: class logging without a list adds a method decoration to names without a double underscore at either end; with a list it decorates the listed names and restores the originals of the other names without double underscores; class unlogging adds @unlog to names that do not start with a double underscore. Listed names that the class does not have raise AttributeError. A class given in place of the names (methods=(SomeClass,)) takes every layer from every method without double underscores, even layers that were put on it explicitly.", "quantifier": "every class body, every list of names, every stack of class decorators", "why_tests_cant": "All classes and all stacks.", "anchors": ["polog/loggers/auto/class_logger.py", "polog/unlog.py: unlog_class", "polog/core/stores/registering_functions.py"]}
{"id": "C57", "title": "What the record of a logged call says", "statement": "If message() was not used, the record of a call that returned has exactly: auto=True, time, success=True, result (json), level (the decorator's number, else default_level), time_of_work, message of the decorator if given, service_name if set, input_variables if there are arguments, module/function/class of the function, and nothing else; the record of a call that raised has success=False, the error level, exception_type, exception_message, traceback, local_variables and no result.", "quantifier": "every call in every program state, every decorator arguments", "why_tests_cant": "All combinations of settings, arguments and outcomes.", "anchors": ["polog/loggers/auto/function_logger.py: get_base_args_dict, log_normal_info, log_exception_info", "polog/core/utils/exception_to_dict.py"]}
{"id": "C58", "title": "with-blocks of concurrent tasks and threads", "statement": "In any interleaving of threads and asyncio tasks that are created outside with-blocks, the exit of 'with log:' in a task finalises the block the same task entered last and raises no error; for tasks created inside a block the claim fails (the stack is a shared list): a task can finalise another's block or get IndexError.", "quantifier": "every interleaving of enters, exits and creations of tasks and threads", "why_tests_cant": "Depends on interleavings of tasks.", "anchors": ["polog/loggers/router.py: __enter__, __exit__"]}
{"id": "C59", "title": "Rotation by size moves no small file and lets the file exceed the limit by at most one record", "statement": "If all threads use one file handler and a file is moved only when it was seen with at least the limit of the size rule, then in every interleaving no file smaller than the limit is ever moved. With a single thread, forced flush and no failing move, the live file between records and every file when it is moved exceed the limit by less than the length of the record written last. Both fail with more actors: a second handler (process) moves the new small file, and several threads of one handler can together exceed the limit by several records.", "quantifier": "every interleaving of any number of threads, every history of records and buffer flushes", "why_tests_cant": "Depends on the interleaving of check, move and write.", "anchors": ["polog/handlers/file/rotation/rotator.py: maybe_do, do", "polog/handlers/file/writer.py: do", "polog/handlers/file/rotation/rules/rules/file_size_rule.py"]}
{"id": "C60", "title": "Names of rotated files", "statement": "Files rotated at different moments or by different processes get different paths for any destination directory; the path is that directory plus a name without a slash; for one process the alphabetical order of the names is the chronological order unless a rotation falls on a whole second, whose name has no microseconds and is sorted after later files of that second.", "quantifier": "every date, time, process id and directory", "why_tests_cant": "All dates and directories.", "anchors": ["polog/handlers/file/rotation/rotator.py: new_filename, do"]}
{"id": "C61", "title": "The line that the file handler writes for a record", "statement": "For every record whose fields have the documented meaning, and whatever the formatter formatted before, the text is the time in brackets, the level name, SUCCESS/ERROR/UNKNOWN, AUTO/MANUAL, the quoted message, where, time of work, input variables, local variables, result, exception, traceback and the custom fields in their order, joined by ' | ' and ended by the separator; absent things are left out; the level, success and auto columns are centred and at least as wide as the longest level name registered when the formatter formatted its first record (7, 6 for the others). For any record at all the pieces are those of its fields, each at most once, none but the documented ones left out, fields that are not of the expected form are shown as they are, and formatting fails only if a custom field cannot be written as text. Refuted: that a record gives one line, that the line determines the record, that every custom field is shown ('exception' may vanish), that levels registered later are aligned.", "quantifier": "every record, every history of the formatter, every change of levels and settings in between", "why_tests_cant": "All records, all histories of one formatter.", "anchors": ["polog/handlers/file/base_formatter.py", "polog/handlers/file/base_formatter_fields_extractors.py"]}
{"id": "C62", "title": "Extra fields: the class field and their registration", "statement": "field(extractor, converter) is created exactly when the extractor and the converter, if given, are callables of one plain argument, else ValueError; get_data calls the extractor once with the record and then the converter once with its answer, the converter not being called if the extractor raises. config.add_fields and add_engine_fields register the given fields in order up to the first unacceptable one (ValueError for an object without a usable get_data, NameError for a bad name), keeping the earlier ones; delete_* remove exactly the named fields, KeyError at the first name that is not there. After any history every registered name is an identifier, does not begin with '_' and is none of the sixteen built-in names. get_*_fields gives the registered fields (of the given names), the engine field winning in get_all_fields. Refuted: that the default converter turns the value into a text, and that no accepted name is hidden by the file formatter.", "quantifier": "every history of registrations and deletions with any arguments; every extractor and converter", "why_tests_cant": "All histories and all signatures.", "anchors": ["polog/field.py", "polog/config.py: add_fields, add_engine_fields, delete_fields, delete_engine_fields, get_in_place_fields, get_engine_fields, get_all_fields", "polog/core/utils/name_manager.py: is_possible_extra_field_name"]}
{"id": "C63", "title": "Arguments and results written as json are shown again in the log line", "statement": "json_vars gives None exactly when there are no arguments and raises exactly when str() of some argument raises; with a json module that reads back what it wrote, the log line shows all positional arguments in order and then all named ones, each with its text (texts in quotation marks) and its type, and the result likewise. Refuted: that the shown type is the class of the object (a subclass of str, int or float is shown as its base) and that the shown text determines the arguments.", "quantifier": "every list of arguments of any values", "why_tests_cant": "All values and numbers of arguments.", "anchors": ["polog/utils/json_vars.py", "polog/handlers/file/base_formatter_fields_extractors.py: json_variables_to_text, input_variables, local_variables, result"]}
{"id": "C64", "title": "The fields of a with-block", "statement": "The positional argument of log(...) and of the calls of the object inside the block is the message; anything but at most one string is refused with IncorrectUseLoggerError, and so is a message that contradicts message= unless silent_internal_exceptions is on. A call inside the block replaces exactly the fields it mentions and touches no other block and no record already written. At the end one record is handed to the manual logger; every field of it is what the last call mentioning it said, else what log(...) said, except that the time is the beginning of the block, and the time of work, the success and the data of an exception are those of the block. Refuted: that a time given to log(...) is kept.", "quantifier": "every block, every arguments, every sequence of calls inside it, every outcome", "why_tests_cant": "All sequences of edits and all fields.", "anchors": ["polog/loggers/finalizer.py: __init__, __call__, __enter__, __exit__, convert_arguments_to_dict, rewrite_fields"]}
{"id": "C65", "title": "The e-mail handler: its arguments, its letters, its repr", "statement": "SMTP_sender(...) makes a handler exactly of acceptable arguments, which become its attributes; any other is refused with ValueError. repr() is the same for every password. Without assemblers the text of a letter lists every field of the record in order, each as 'key = value', says so when there are none, and the subject tells the success; a letter is not made exactly if some value has no text. An assembler is called once with the record and what it returns is the text (the subject); an exception of it means that there is no letter and nobody is called after. Refuted: that repr() distinguishes handlers that behave differently, and that the default text determines the record.", "quantifier": "every argument, every record, every assembler", "why_tests_cant": "All records and all assembler outcomes.", "anchors": ["polog/handlers/smtp/sender.py: SMTP_sender.__init__, __repr__, get_content, get_text, get_subject, get_standart_text, get_standart_subject", "polog/handlers/abstract/base.py: do_input_proves"]}
{"id": "C66", "title": "Letters sent by several threads through one e-mail handler", "statement": "Each letter of a thread is decided once and in order, and its sending returns exactly if the server accepted it (otherwise it raises, so the record goes to the alternative handler). If only one thread sends, every letter has a connection of its own, logged in before the letter; with a server that does what it is asked every letter is accepted and its connection ended before the next one is made. Refuted: that this holds with two threads (one thread closes the connection of the other and the letter is lost; a connection is left open; a letter goes over another thread's connection before any login), and that a refused login or letter ends the connection.", "quantifier": "every interleaving of any number of threads, every answer of the server", "why_tests_cant": "The interleavings of threads sharing one attribute.", "anchors": ["polog/handlers/smtp/smtp_dependency_wrapper.py: SMTPDependencyWrapper.send, create_smtp_server, send_mail, quit_from_server"]}
{"id": "C67", "title": "The limit of time of the exit hook", "statement": "A function decorated with time_limit gives the caller what it would give alone as long as no interrupt reaches the main thread. A TimeoutError has a cause: an interrupt, or a KeyboardInterrupt of the function itself. For a function that lets KeyboardInterrupt through the last interrupt decides: inside of the try block it is the end of the time, elsewhere the caller sees KeyboardInterrupt. On the way out the timer is cancelled unless an interrupt came just before. No timer is made exactly if the delay function raises or gives something that is not a number greater than zero (NaN apart). The argument must be a positive number or a callable without parameters. Refuted: that a result obtained in time is kept, that no KeyboardInterrupt escapes, that nothing is interrupted afterwards, that Ctrl-C of the user passes.", "quantifier": "every function, every interleaving of the main thread, the timer and Ctrl-C", "why_tests_cant": "The moments at which the timer can fire.", "anchors": ["polog/core/utils/time_limit.py: time_limit", "polog/core/engine/engine.py: Engine.reload / exit hook"]}
{"id": "C68", "title": "The traceback and the local variables of a logged exception", "statement": "As an exception passes through any stack of plain, decorated and manually logging functions, the caller sees every function once and, when tracebacks are cut, none of polog's wrappers. The record of a decorated function tells the traceback from that function inwards and the variables of that function; the record of log(exception=e) in the function that caught e tells the traceback from that function and the variables of the next frame. What cannot be told is replaced by an empty list and empty text, never by an exception, as long as json can write an empty list. Refuted: that the variables are those of the frame where the exception was raised, that manual records never tell variables of polog's wrapper, that log(exception=e) always tells the traceback of e.", "quantifier": "every stack of functions, with and without cutting, every formatter and json module", "why_tests_cant": "All depths and mixtures of functions.", "anchors": ["polog/core/utils/get_traceback.py: get_traceback, get_locals_from_traceback", "polog/core/utils/cut_traceback.py: cut_traceback", "polog/loggers/auto/function_logger.py: FunctionLogger", "polog/loggers/handle/abstract.py: AbstractHandleLogger"]}
{"id": "C69", "title": "log_is_built_in and fields_intersection take effect when they are assigned", "statement": "log_is_built_in reads as the last bool assigned (False at first), whatever else is tried. In a program that leaves builtins.log to polog the name log is built in exactly while the setting is on; an assignment that changes the setting decides the built-in name, whatever was there, and one that does not change it, or is refused, leaves it. fields_intersection: if assignments do not overlap with first creations of records, records go by the value assigned last as soon as one was created; once no thread is in its first creation and the records go by the setting they do for ever, in every interleaving; an assignment that changes the setting brings them in line. Refuted: that turning log_is_built_in on and off restores the program's own built-in log; that log is there whenever the setting was just set to True; that records always go by fields_intersection (an assignment that meets the first creation is lost for good) and that assigning the value again repairs it.", "quantifier": "every history of assignments and of changes of builtins; every interleaving of record creations and assignments", "why_tests_cant": "All histories and interleavings, with the one-time creation path.", "anchors": ["polog/core/stores/settings/actions/decorator.py: is_action", "polog/core/stores/settings/actions/set_log_as_built_in.py", "polog/core/stores/settings/actions/fields_intersection.py", "polog/core/log_item.py: LogItem.__new__", "polog/core/stores/settings/setting_point.py: SettingPoint.set"]}
{"id": "C70", "title": "Names of levels", "statement": "config.levels registers a level of a legal number exactly if its name is a python identifier that does not begin with an underscore and is not taken by the loggers; otherwise NameError and nothing is stored. Several levels in one call are registered in order up to the first unacceptable one. After every configuration every registered level is reached as log.<name>, handle_log.<name> and message.<name> and has a number, and no level hides an attribute or method of the loggers. Refuted: that a refused call registers nothing; that every accepted name can be written after a dot (keywords are accepted).", "quantifier": "every history of configuration calls, every name", "why_tests_cant": "All names and histories.", "anchors": ["polog/core/utils/name_manager.py: NameManager.is_possible_level_name", "polog/config.py: config.levels, standard_levels", "polog/loggers/handle/abstract.py: AbstractHandleLogger.__getattribute__", "polog/loggers/router.py: Router.__getattribute__"]}
{"id": "C71", "title": "The text of a tree of handlers", "statement": "str(tree) says '<NamedTree empty object>' exactly if nothing is stored, whatever empty nodes are left behind. Otherwise it has a line for the tree itself and exactly one for every node, indented by its depth, each after its parent and everything below a node before the next node beside it; without projections the lines are exactly the paths that lead to stored values. A local tree made by a projection is drawn in the same way at any later time. If no name holds a line break the nodes can be read back: the same text means the same nodes. Refuted: that the text tells which of the drawn keys hold values; that it depends only on what is stored (a projection adds lines).", "quantifier": "every history of operations on a tree, every projection, every text", "why_tests_cant": "All histories; the property is about every reachable tree, including ones with cut branches.", "anchors": ["polog/data_structures/trees/named_tree/printer.py: TreePrinter", "polog/data_structures/trees/named_tree/walker.py: TreeWalker.dfs", "polog/data_structures/trees/named_tree/tree.py: NamedTree.__str__, get_full_name"]}
{"id": "C72", "title": "Creating a file handler", "statement": "file_writer(...) succeeds exactly if the checked arguments are right, there is no file argument (standard output), one name or one object with callable read, write and close, lock_type and the rotation command can be read (a non-empty command only with a name), and the system opens the file and the lock file. The object then writes there, has the locks asked for (a file lock only with a name), the rotation asked for and the formatter given or the standard one. The named file keeps all its text, the file <name>.lock is emptied, nothing else changes. A refusal is ValueError or the error of the system; wrong checked arguments or file arguments are refused before any file is touched. However many handlers are created or refused, a log whose name does not end with .lock keeps its text. Refuted: that a refused handler leaves no trace (a wrong rotation or lock_type leaves the file created); that no log is emptied (one that has the name of a lock file is); that who asks for a file lock gets one.", "quantifier": "every combination of arguments, every file system, every sequence of constructions", "why_tests_cant": "All argument combinations, file systems and sequences.", "anchors": ["polog/handlers/file/writer.py: file_writer.__init__, get_formatter, get_rotator", "polog/handlers/file/file_dependency_wrapper.py: FileDependencyWrapper.__init__, is_file_object, get_file_object", "polog/handlers/file/locks/double_lock.py: DoubleLock.__init__", "polog/handlers/file/locks/file_lock.py: FileLock.__init__", "polog/handlers/file/rotation/rotator.py: Rotator.__init__"]}
{"id": "C73", "title": "Settings changed by several threads", "statement": "However the calls config.set, config.levels and config.standard_levels of any number of threads interleave, their keywords can be put into one order, extended and never rearranged as the run goes on, in which doing them one at a time tells every thread what it was told and gives every setting that nobody is changing, every number of a level name and every value of pool_size and max_queue_size anybody reads. Each call goes through its keywords in order and stops at the first refusal. At every moment, also in the middle of assignments, every setting is legal and the settings agree with each other (pool and queue, logging_off and integration_with_logging). The logger is started at most once. Threads never block each other for good: some thread can move as long as any call is unfinished, and each makes at most eight moves for a keyword. Exactly the settings of one family share a lock, and a setting is only compared with settings of its family. Refuted: that a call with several keywords is one step; that reads without a lock fit into the order; that registrations of level names keep names and numbers leading to each other.", "quantifier": "every number of threads, every interleaving of their moves, every call", "why_tests_cant": "Races need particular interleavings; a test sees a few of them.", "anchors": ["polog/core/stores/settings/setting_point.py: SettingPoint.set, locked_get, unlocked_get, share_lock_object", "polog/core/stores/settings/settings_store.py: SettingsStore.points, __init__, __getitem__, __setitem__", "polog/core/stores/levels.py: Levels.set, get", "polog/config.py: config.set, levels, standard_levels"]}
{"id": "C74", "title": "Handlers changed while a record is on its way to them", "statement": "The record is passed to the handlers of the registry one by one, and handlers may be added, replaced and removed before, between and during these calls, by the handlers themselves or by other threads. Whatever happens, a handler is called under a name only if it is the one registered under that name at that moment (so a handler removed before its turn is not called and a replaced one is called in its new version), no name is called twice, and deeper names are not called before shallower ones. If the delivery reaches its end, every name under which something is registered all the time has been called exactly once, and so has every name added below a name whose turn had not come or below the name of the handler that was just running. When the changes stop the delivery ends; it ends regularly if nobody touches the registry while the children of a node are read, as is the case when only the called handlers make changes. Without changes the calls are those of the iteration (C02). Refuted: that a handler removed and at once put back under its name before its turn still gets the record; that with several threads every handler registered all the time gets it (a RuntimeError may end the delivery). A handler that registers itself again below its own name keeps a delivery going without end.", "quantifier": "every history of the registry, every mixture of steps of the delivery and operations on the registry", "why_tests_cant": "The moments at which a registry may change during a delivery are too many to try.", "anchors": ["polog/core/log_item.py: LogItem.call_handlers", "polog/data_structures/trees/named_tree/tree.py: NamedTree.__iter__, __setitem__, __delitem__", "polog/data_structures/trees/named_tree/walker.py: TreeWalker.bfs, bfs_values"]}
{"id": "C75", "title": "Which calls the decorators of a class leave as they were", "statement": "A class decorator (@log or @unlog on a class) replaces attributes of the class. Whatever decorators are put, in any order and number, on classes and on the functions in their bodies: a method (own or inherited, called on an instance or on the class) receives exactly the arguments it would receive without decorators; a static method and a callable attribute do so when called on the class; a class method called on the class receives the class itself or a decorated base of it; data and properties are not replaced; no attribute appears; classes that are not under a class decorator and have no such base keep everything. This holds when bases are unambiguous (single inheritance, or no class in between overrides the name). The layer of a method or static method is determined: @unlog wins, then the last @log at the function, then the last @log of the class, as long as no inheriting class is decorated; and once @unlog was put on it or its class, no later decorators of any functions and classes, with any inheritance, make its calls be recorded. One @log on a class leaves a call of a covered attribute as it was exactly when the attribute is a method, or the call goes through the class and does not pass a subclass to a class method. Refuted: that static methods, class methods and nested classes may be used through instances of a decorated class; that a class method of a subclass receives the subclass; that a nested class stays a class; that names outside methods=... are left alone; that the decorators in the body win for class methods; that there is at most one layer when a class, an inheriting class and the class again are decorated; and, for diamonds of classes, that a method still overrides the one of the common base.", "quantifier": "every hierarchy of classes, every sequence of decorators of classes and of functions in their bodies, every call", "why_tests_cant": "Tests decorate plain methods; the other kinds of attributes, inheritance and repeated decorating multiply.", "anchors": ["polog/loggers/auto/class_logger.py: ClassLogger.__call__, get_logging_methods, make_originals", "polog/unlog.py: UnlogDecorator.__call__, unlog_function", "polog/loggers/auto/function_logger.py: FunctionLogger.__call__", "polog/core/stores/registering_functions.py: RegisteringFunctions"]}
{"id": "C76", "title": "The texts of records, of log objects, of settings, rules, tokens and of the weak dictionary", "statement": "str() and repr() of a record tell which object it is, and say that it is empty exactly when it has no fields; if the names contain no spaces and '=' and the values no quotes (and, for values that are not strings, no commas), the text determines all fields, their order and whether a value is a string. The same holds for repr() and str() of the object behind log(...), for tokens, for rotation rules without any condition on their source, and for the settings up to the str() of their values. The weak dictionary calls itself empty exactly when it has no entries. Refuted: that a text determines the fields in general (any record with a string first and last has the same text as a record with one forged message); that the text of the settings tells strings from other values; that the text of a weak dictionary shows keys and values that are strings.", "quantifier": "every record, every set of fields and settings, every content", "why_tests_cant": "A text that can be read in two ways is found only by looking for it.", "anchors": ["polog/core/log_item.py: LogItem.__str__, __repr__", "polog/loggers/finalizer.py: LoggerRouteFinalizer.__repr__, __str__", "polog/core/stores/settings/settings_store.py: SettingsStore.__str__", "polog/core/stores/settings/setting_point.py: SettingPoint.__str__", "polog/data_structures/wrappers/weak_linked/dictionary.py: LockedWeakKeyValueDictionary.__str__", "polog/handlers/file/rotation/rules/rules/abstract_rule.py: AbstractRule.__repr__", "polog/handlers/file/rotation/rules/rules/tokenization/tokens/abstractions/abstract_token.py: AbstractToken.__repr__"]}
{"id": "C77", "title": "The times of records", "statement": "In any program of calls, blocks, messages and manual records that does not give times itself, the record of a call or of a with-block tells the reading of the clock taken right before its body ran and the difference to the reading taken right after it; a manual record tells one reading and no time of work. Of two records the one written first had ended before the other began, or lies inside of it. With a clock that is never set back the time of work is therefore never negative and records are written in the order in which what they tell about ended. Refuted: that the time of work is never negative (time.time() may be set back); that records are written in the order of the times they carry; 'before or inside' when a 'with log.suppress(...)' was refused inside a block.", "quantifier": "every program, nesting, settings and every sequence of readings of the clock", "why_tests_cant": "Which reading of the clock a record carries depends on nesting; tests look at one record and accept any positive time.", "anchors": ["polog/loggers/auto/function_logger.py: FunctionLogger.__call__ (wrapper, async_wrapper), log_normal_info, log_exception_info", "polog/loggers/finalizer.py: LoggerRouteFinalizer.__enter__, __exit__", "polog/loggers/handle/handle_log.py: BaseLogger._specific_processing"]}
{"id": "C78", "title": "What settings do outside of the store, under concurrent changes", "statement": "While threads assign settings in any interleaving and others add and remove filters of their own at logging's root logger: as soon as nobody is in the middle of assigning it, polog's filter is at the root logger exactly once if integration_with_logging is on and not at all if it is off, and builtins.log is polog's log if log_is_built_in is on and absent otherwise; polog's filter is never there twice and the filters of others stay as their owners put them, in their order; at every moment, also between the steps of an assignment, polog's filter is there while logging_off is on, so that a record of the root logger that other filters let through is then handled by polog and not by the handlers of logging; running the actions changes nothing about the settings themselves and never blocks the threads for good. Refuted: that whoever reads that the integration is on can rely on the filter; that turning the integration off and on again changes nothing (polog's filter is then asked last).", "quantifier": "every number of threads, every interleaving of assignments, every sequence of changes of other filters", "why_tests_cant": "The moments between storing a value, running its action and releasing the lock; two settings share a lock for this.", "anchors": ["polog/core/stores/settings/setting_point.py: SettingPoint.set, do_action", "polog/core/stores/settings/actions/integration_with_logging.py: integration_with_logging", "polog/core/stores/settings/actions/set_log_as_built_in.py: set_log_as_built_in", "polog/core/stores/settings/actions/decorator.py: is_action", "polog/core/stores/settings/settings_store.py: SettingsStore.points, SettingsStore.__init__"]}
{"id": "C79", "title": "Engines given by the user with config.set(engine=...)", "statement": "For engines that do anything, fail at any time and depend on all that happened: no engine is made before the first record; an engine is made from the value the setting has at that moment, so that setting engine after the first record has no effect until pool_size or max_queue_size is changed; a record is given to the engine made last, and every engine is told to stop before the next one is made; a write returns only after exactly one engine has taken the record, and otherwise raises what that engine raised, or AttributeError if there is none. If making the first engine fails, every record raises AttributeError, whatever engine is set later, until a size is changed. If making never fails, no engine gets a record after its stop was called. If engines read neither of the two sizes and write no records while being made or stopped, no operation ever blocks before the program ends, however often they raise; whoever blocks while assigning a size blocks all later records and assignments of sizes. If no engine fails, what happens is exactly: one engine at the first record, one more (after stopping the old) at each accepted change of a size, each record to the current one. Refuted: that a stopped engine is not used (making the next one may fail); that an engine may read the settings it is given (reading pool_size in the constructor blocks the program at the first reload); that a constructor may write a record.", "quantifier": "every behaviour of the engines depending on the history, every sequence of records, changes of sizes and engines and the exit hook", "why_tests_cant": "User code with arbitrary failures at each of three calls, and locks that stay held for ever.", "anchors": ["polog/core/engine/engine.py: Engine.write, Engine.reload, Engine.load, Engine.stop, Engine.block, Engine.unlock", "polog/core/stores/settings/setting_point.py: SettingPoint.set, locked_get", "polog/core/stores/settings/settings_store.py: SettingsStore.points", "polog/core/stores/settings/actions/reload_engine.py: reload_engine", "polog/core/utils/exception_escaping.py: exception_escaping"]}
{"id": "C80", "title": "The garbage collector does not change what the decorators do", "statement": "The registry of decorated functions refers to functions only weakly. Whatever functions and wrappers are collected, one by one or in cycles, and whenever the entries about them are removed: every decorator (log, log on a class, unlog, the restoring of originals) returns exactly the object it would return if nothing were ever collected, and this object consists of the same layers; for every living object the registry has the same original, the same prohibition, the same marks; the original of a living object lives. A wrapper that is decorated again is referred to by nothing that polog makes afterwards, so it can be collected at once if the program does not keep it. When the callbacks about dead objects have run, the registry mentions none of them.", "quantifier": "every program of definitions and decorators, every legal collection at every moment, every order of callbacks", "why_tests_cant": "Depends on the moments of collection; a test sees one.", "anchors": ["polog/core/stores/registering_functions.py: RegisteringFunctions", "polog/data_structures/wrappers/weak_linked/dictionary.py: LockedWeakKeyValueDictionary.get, pop, __setitem__", "polog/loggers/auto/function_logger.py: FunctionLogger.__call__", "polog/unlog.py: UnlogDecorator.unlog_function"]}
{"id": "C81", "title": "Making the object of the settings, once or several times", "statement": "SettingsStore() informs the points of the settings, which belong to the class, about the store and their names, shares their locks and puts polog's filter at logging's root logger. However many objects are made (two threads can make two, see C46) and whatever assignments of integration_with_logging and foreign filters come between any two steps: no initialisation raises and each can be finished; from the end of the first one on two settings have the same lock exactly if they belong together (started, pool_size, max_queue_size; default_level, default_error_level; logging_off, integration_with_logging), and no lock is exchanged any more, not even for a moment; when no initialisation is going on every point knows its own name and the object informed last; an object informs the points once; polog's filter is never there twice, and if no assignment came in the middle of an initialisation it is there exactly if the setting is on. With an assignment in the middle of the initialisation of a second object the filter can stay though the setting is off.", "quantifier": "every sequence of objects, steps, assignments and foreign filters", "why_tests_cant": "Needs two threads that both make the store, and an assignment between two adjacent steps.", "anchors": ["polog/core/stores/settings/settings_store.py: SettingsStore.__init__, get_point", "polog/core/stores/settings/setting_point.py: SettingPoint.share_lock_object, set_lock_object, set_store_object, set_name", "polog/core/stores/settings/actions/integration_with_logging.py: integration_with_logging"]}
