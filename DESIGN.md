# Design

Subject: pomponchik/polog as pinned in /repo, read as text (neither built nor run). Formal model and proofs in Coq 8.16.1,
standard library only, under `rocq/theories` (logical name `Verif`).

## Method

* `*_Model.v`: executable Gallina transcription of the Python code, function by function, each definition citing file and lines.
  Exceptions are values (`Res`), external callables (handlers, extractors, user functions, time, the OS scheduler) are
  parameters or choices of the schedule.
* `*_Spec.v` (or a specification section at the head of `*_Props.v`): the property's vocabulary, independent of the model's helpers.
* `*_Proofs.v` and similar: lemmas. `*_Props.v`: the property theorems, their non-vacuity examples and `Print Assumptions`.
* A documented promise that the code does not keep is stated with the exact condition under which it holds, and beside it a
  `..._refuted` theorem gives a concrete counterexample in the model.
* Sequential parts: theorems over every history (list of operations) from the initial state. Concurrent parts: transition systems
  whose steps are single accesses to shared state; theorems over every schedule.
* Mutation tests: `seeded/LOG.jsonl` lists wrong programs made from the model, what each breaks and which theorems failed.

## Trusted base

1. Coq's kernel (8.16.1), including its `vm_compute` reduction, used to evaluate closed examples and witnesses.
2. Axioms: **none**. `Print Assumptions` answers "Closed under the global context" for every one of the 492 theorems named in
   MANIFEST.json (every Props file ends with these commands, so the build log shows the answers). No axiom of the standard
   library is used. (coqchk lists seven constants of `Coq.ssr.ssrunder.Under_rel` as axioms of the loaded standard library; they are sealed
   by a module type there and no theorem depends on them.) Section variables and hypotheses are discharged when a section closes: they appear as universally
   quantified parameters and premises of the theorems. The premises about the outside world are:
   * `isident "." = false`, likewise for `"*"`, `"**"` (str.isidentifier; C47, C62, C65, C72);
   * the empty string is not an identifier (C71);
   * `int()` refuses the names of the size units (C41, C72);
   * the json module reads back what it wrote (C63, round trip only); a default `json_module` is acceptable to its own check (C06-C09, C73);
   * white space contains the blank and the line feed and no character of `File`, `line`, `in` and `",` (C61);
   * a shuffle gives a permutation (C45);
   * the directory of rotated files is on the file system of the log file, and new names are new (C39, where stated; refuted without).
   Each is satisfied by a concrete instance in an Example of the same file.
3. That the Gallina definitions say what the Python code says. Each definition cites the lines it transcribes; nothing checks this
   mechanically. The behaviour of CPython and its standard library used by the code (dict order, queue.Queue, threading locks,
   contextvars, weakref, inspect.signature, atexit, os.rename, flock, logging filters) is modelled from its documentation.
4. `coqc`/`coqchk` as programs and the machine they run on.

## What is modelled, per source file

| file in /repo/polog | model | not modelled / simplified |
|---|---|---|
| config.py | Settings_Model, Reg_Model, Field_Model | pony name generation is Pony_Model |
| core/engine/engine.py, real_engines/* | Eng_Model, User_Model (engines given by the user, one operation after another) | engines given by the user with several threads at once; the step between setting started and registering the exit hook |
| core/log_item.py | Item_Model, Deliver_Model (handlers changing meanwhile), Text_Model (texts) |  |
| core/stores/fields.py, handlers.py | Field_Model, Reg_Model |  |
| core/stores/levels.py | Settings_Model, Handle_Model (get), Race_Model (threads) |  |
| core/stores/registering_functions.py | Deco_Model, DecoKind_Model (also for bound methods), Gc_Model (weak references) | weak references to bound methods are strong; collections in the middle of a decorator |
| core/stores/settings/setting_point.py, settings_store.py | Settings_Model (sequential), Race_Model (threads), React_Model (actions under threads), Eng_Model (locks of the engine), Text_Model (texts), Inform_Model (initialisation) | waiting for the locks of points inside SettingsStore.__init__ |
| core/stores/settings/actions/decorator.py, fields_intersection.py, set_log_as_built_in.py | Act_Model, React_Model (threads) | subclasses of LogItem |
| core/stores/settings/actions/reload_engine.py | Eng_Model |  |
| core/stores/settings/actions/integration_with_logging.py | Logging_Model, React_Model (threads) | formatting of the logging record's arguments |
| core/utils/cut_traceback.py, get_traceback.py | Trace_Model | the text of a frame; json of its variables is a parameter |
| core/utils/exception_escaping.py | Item_Model |  |
| core/utils/exception_is_suppressed.py, get_errors_level.py | Supp_Model | virtual subclasses |
| core/utils/exception_to_dict.py, not_none_to_dict.py | Handle_Model |  |
| core/utils/is_json.py | Settings_Model (as a parameter) |  |
| core/utils/name_manager.py | Field_Model (extra fields), Level_Model (levels) | attributes added by the program to the loggers |
| core/utils/pony_names_generator.py | Pony_Model | recursion limit |
| core/utils/read_only_singleton.py | Single_Model |  |
| core/utils/signature_matcher.py | Sig_Model | parameters as inspect reports them |
| core/utils/time_limit.py | Limit_Model | real time: the timer may fire at any moment |
| data_structures/trees/named_tree/* | Tree_Model, Tree_Spec, Draw_Model, Deliver_Model (iteration during changes) | locks; the limit of recursion in printer.py; a dictionary changed without changing its size while another thread iterates it |
| data_structures/wrappers/fields_container/container.py | Args_Model, Item_Model |  |
| data_structures/wrappers/weak_linked/dictionary.py | Weak_Model, Text_Model (texts) | iteration during changes |
| errors.py | Base (exn) | messages |
| field.py | Field_Model |  |
| handlers/abstract/base.py | Hnd_Model, Mail_Model (do_input_proves) |  |
| handlers/file/base_formatter.py, base_formatter_fields_extractors.py | Fmt_Model, Json_Model, Time_Model | rounding of floats |
| handlers/file/file_dependency_wrapper.py, writer.py | File_Model, Name_Model, Writer_Model | classes passed as file_wrapper, base_formatter, rotator; encoding |
| handlers/file/locks/* | Lock_Model, Rot_Model (specification of the lock), Writer_Model (creation) | non-posix systems |
| handlers/file/rotation/* | Rot_Model, File_Model, Name_Model, Text_Model (texts) | date_time_rule and period_rule are empty in the code |
| handlers/memory/saver.py | Mem_Model |  |
| handlers/smtp/* | Mail_Model, Smtp_Model | encoding of the letter by the email library; overlapping smtplib calls on one connection |
| loggers/auto/class_logger.py | DecoClass_Model, DecoKind_Model (static methods, class methods, nested classes, inheritance) | metaclasses; attributes that raise when read |
| loggers/auto/function_logger.py | Deco_Model, Call_Model, Args_Model, Clock_Model (times) |  |
| loggers/finalizer.py, partial.py, router.py | Call_Model, Supp_Model, Tasks_Model, Text_Model (texts), Clock_Model (times) | collection of an object by the garbage collector is an explicit step |
| loggers/handle/abstract.py, handle_log.py, message.py | Handle_Model, Call_Model, Clock_Model (times) |  |
| loggers/handle/smart_assert.py | Assert_Model |  |
| unlog.py | Deco_Model, DecoClass_Model, DecoKind_Model, Call_Model |  |
| utils/json_vars.py | Json_Model |  |

In general not modelled: running out of memory or of recursion depth, KeyboardInterrupt and other asynchronous exceptions,
user classes that redefine `__eq__`/`__hash__`/`__instancecheck__` in odd ways, monkey patching of polog itself, forks.

## What the models say about themselves

* `Act_Model.v`: Model of the actions of two settings: polog/core/stores/settings/actions/decorator.py, set_log_as_built_in.py, fields_intersection.py, as SettingPoint.set calls them (setting_point.py 66-79, 120-125), and of the cached value in LogItem.__new__ (log_item.py 22-34).
* `Args_Model.v`: Model of the decorator's arguments handlers= and extra_fields= : polog/loggers/auto/function_logger.py 241-326, and of FieldsContainer (polog/data_structures/wrappers/fields_container/container.py 13-41).
* `Assert_Model.v`: Model of polog/loggers/handle/smart_assert.py and of the point smart_assert_politic (settings_store.py 144-155).
* `Call_Model.v`: Calls of decorated functions, message(), with-blocks and manual records inside one thread (or one task). polog/loggers/auto/function_logger.py 43-239, polog/unlog.py 79-110, polog/loggers/handle/message.py, polog/loggers/handle/handle_log.py, polog/loggers/finalizer.py, polog/loggers/router.py, polog/loggers/partial.py. The user's program is a tree: what it does next depends on what the calls it made returned or raised. A call of a decorated function is the node of its layer around the body of the function; by C22 a function has at most one logging layer. The wrapper of a coroutine function does the same steps around await as the ordinary one, so it is not modelled separately (lines 67-83 repeat 89-105). Simplified: the engine accepts every record (Eng_Model), the extra fields of a record are those of Item_Model and are left out; str() of an exception and the conversion of arguments and results to json are functions of the environment that may raise; setting the mark on the exception object never fails; the clock is constant (Clock_Model lets it run).
* `Clock_Model.v`: The clock: calls, with-blocks and manual records with the moments at which polog reads the time. polog/loggers/auto/function_logger.py 89-105 (lines 92, 96, 103: time.time(); 67-83 for coroutine functions), polog/loggers/finalizer.py 65-82 and 84-98, polog/loggers/handle/handle_log.py 18-21 and 32-39. The programs, the states and the pieces of the wrapper are those of Call_Model; here every piece is given the moments that it reads. The clock is any sequence of numbers: [clock n] is what reading number n of time.time() gives. [stamp] is datetime.fromtimestamp and [span] the difference of two readings as it is stored in a record. Simplified: a reading that the code leaves out (the time of a manual record that has the field already, the end of a call that is left by an exception that is not an Exception) is counted, so that the next reading is a later one: the clock is arbitrary, so nothing is lost. The rounding of floats is not modelled.
* `DecoClass_Model.v`: Decorators of classes: polog/loggers/auto/class_logger.py 13-72, polog/unlog.py 30-37. A class is the dictionary of the attributes that getattr finds on it (its own and the inherited ones); setattr puts the attribute into the class itself, so the base classes keep theirs. Simplified: the attributes are functions or data (no nested classes, static methods or properties); dir() gives the names in the order of the dictionary instead of the alphabetical order.
* `DecoKind_Model.v`: Decorators of classes over the kinds of attributes: functions, static methods, class methods, callable objects (a nested class, a class kept as an attribute, functools.partial, ...) and everything else, with inheritance. polog/loggers/auto/class_logger.py 13-72, polog/unlog.py 30-37 and 59-77, polog/loggers/auto/function_logger.py 56-113 (the decorating part), polog/core/stores/registering_functions.py. DecoClass_Model has functions and data only; here the descriptor protocol of Python is added: what getattr gives for an attribute of a class or of an instance, and what the function of the user receives when the result is called. Simplified: keyword arguments are left out (all wrappers pass them on as they are); dir() gives the names in another order; an attribute that cannot be called cannot be decorated either (ETypeError: no weak reference to it); the weak references of the registry are strong; all classes exist from the start (a decorator writes only into its own class); instances have no attributes of their own; the names given in [methods] are strings.
* `Deco_Model.v`: The registry of decorated functions and the three decorators that use it. polog/core/stores/registering_functions.py, polog/unlog.py 59-77, polog/loggers/auto/function_logger.py 56-113 (the decorating part), polog/loggers/auto/class_logger.py. Function objects are numbers, in the order of their creation; what an object does when called is recorded with it. Simplified: the weak references of the registry are strong (an entry of all_decorated_functions or unlogged_functions disappears only with its key, because a wrapper keeps its original alive; proved in Gc_Props); functions are compared by identity (bound methods, which compare by value, are left out); [P] stands for all the parameters of a logging decorator.
* `Deliver_Model.v`: The delivery of one record to the handlers of a tree that changes meanwhile. log_item.py 159-164 (call_handlers) iterates the live tree: tree.py 109-118 gives the generator of walker.py 23-31 (bfs_values), which runs on the generator of walker.py 8-21 (bfs). Both are suspended while a handler runs, and nothing is locked, so that handlers and other threads may add and remove handlers at any moment. Here one delivery advances by small steps; between two steps any operation on the tree may happen.
* `Draw_Model.v`: Model of the text of a tree: str(tree), polog/data_structures/trees/named_tree: printer.py, walker.py 33-49, tree.py 152-159 and 274-296. Not modelled: the limit of recursion of Python (printer.py 34-35); [filler] is its default, the tab (printer.py 5).
* `Eng_Model.v`: Model of the engine and its threads: polog/core/engine/engine.py, real_engines/fabric.py, real_engines/singlethreaded/engine.py, real_engines/multithreaded/engine.py, pool.py, worker.py, and the part of settings (setting_point.py 50-78, actions/reload_engine.py, settings_store.py 24-63) that takes part in the synchronisation. An actor is a thread of the program (a list of commands run in order) or a worker thread of some engine instance. One move of one actor is one access to shared state: taking or releasing a lock, reading or writing an attribute, one operation on a queue (queue.Queue is atomic). A move that is not possible now (a lock is taken, a queue is full, a thread to be joined still runs) leaves the state as it is, so a schedule is any list of moves. Simplified: the workers of a pool appear in one move together with the assignment of real_engine (nobody else can reach the new queue before that); executing a record (LogItem.__call__, which raises nothing, property C11) is a start, the records its handlers write themselves ([nested]), and an end; a custom 'engine' setting is left out; settings are changed with values of the right type (property C06 treats the others); the exit hook counts as registered from the moment started is True (engine.py registers it a few steps later).
* `Field_Model.v`: Model of polog/field.py, of the registration of extra fields in polog/config.py and of the check of their names in polog/core/utils/name_manager.py.
* `File_Model.v`: Model of the writing of a file with rotation: polog/handlers/file/writer.py (do), file_dependency_wrapper.py, rotation/rotator.py (maybe_do, do), by any number of threads of any number of handlers (processes) of the same file.
* `Fmt_Model.v`: Model of polog/handlers/file/base_formatter.py and base_formatter_fields_extractors.py: how a record becomes a line of the log file. A record is read as a dictionary (see C53). Texts are sequences of characters.
* `Gc_Model.v`: The registry of decorated functions with its weak references: polog/core/stores/registering_functions.py, polog/unlog.py 59-77, polog/loggers/auto/function_logger.py 56-113, polog/data_structures/wrappers/weak_linked/dictionary.py, weakref.WeakSet. Deco_Model treats these references as strong; here function objects die. A wrapper keeps the function it was made for alive (its closure, and __wrapped__ set by functools.wraps); it does not keep the object that was decorated (before_change_func is no free variable of it). The registry keeps nothing alive. Objects may die whenever no living object outside the dying ones refers to them (so also in cycles), and the entries about the dead are removed at any later moment. Simplified: no object dies in the middle of a call of a decorator (those it uses are held by its frames; others do not matter to it); objects are compared by identity, and the number of a dead object is not used again (references to the dead are equal to nothing new).
* `Handle_Model.v`: Manual logging: the arguments of log(...), message(...) and of with-blocks. polog/loggers/handle/abstract.py, polog/loggers/handle/handle_log.py, polog/loggers/handle/message.py (extraction of the fields), polog/core/stores/levels.py 25-40, polog/core/utils/not_none_to_dict.py, exception_to_dict.py. Values of the user are one of the kinds of [val]: the code only asks for the type of a value (None, bool, int, str, callable, class, exception), for its equality and its __name__ and __module__. Simplified: equality of objects that are neither numbers nor strings is identity (no user-defined __eq__); the traceback and the local variables of the current exception are given by the environment; str() of an exception is given by the environment and may fail.
* `Hnd_Model.v`: Model of polog/handlers/abstract/base.py: the base class of the handlers.
* `Inform_Model.v`: Model of polog/core/stores/settings/settings_store.py 240-260 (SettingsStore.__init__) and of setting_point.py 136-162 and 200-216 (share_lock_object, get_lock_object, set_lock_object, set_store_object, set_name), for any number of objects SettingsStore: the points belong to the class, and the race of read_only_singleton.py (Single_Model) can make several objects. Assignments and the filters of other people come between any two steps.
* `Item_Model.v`: Model of log records: polog/core/log_item.py, polog/core/utils/exception_escaping.py and polog/data_structures/wrappers/fields_container/container.py.
* `Json_Model.v`: Model of polog/utils/json_vars.py and of the part of polog/handlers/file/base_formatter_fields_extractors.py that turns its documents back into text. The json module is a setting (json_module): its dumps and loads are parameters.
* `Level_Model.v`: Model of the names of levels: NameManager.is_possible_level_name (polog/core/utils/name_manager.py 17-43) and the attributes of the manual loggers (loggers/handle/abstract.py 65-72). config.levels is in Settings_Model, the attributes of the router in Call_Model.
* `Limit_Model.v`: Model of polog/core/utils/time_limit.py: a limit of time by a timer thread that interrupts the main thread. The wrapped function runs in the main thread. Time itself is not modelled: a timer that waits may go off at any moment.
* `Lock_Model.v`: Model of polog/handlers/file/locks/: the double lock of a file handler, used by any number of threads of any number of handlers of the same file (in one or several processes).
* `Logging_Model.v`: Model of polog/core/stores/settings/actions/integration_with_logging.py together with the part of the standard module logging it hangs on: Logger.handle and Filterer.filter / addFilter / removeFilter. The record is passed on to simple_handle_log = BaseLogger(all_fields_allowed=True), modelled in Handle_Model.v.
* `Mail_Model.v`: Model of polog/handlers/smtp/sender.py: the arguments of the e-mail handler, the letter it makes of a record, and its repr. The sending itself is Smtp_Model. The letter is a record of what is given to email.mime.text.MIMEText and to its headers; how that library encodes them is not modelled.
* `Mem_Model.v`: Model of polog/handlers/memory/saver.py: the handler that keeps the records in memory, used by any number of threads.
* `Name_Model.v`: Model of the names of rotated files: polog/handlers/file/rotation/rotator.py (new_filename, do).
* `Pony_Model.v`: Model of polog/core/utils/pony_names_generator.py.
* `Race_Model.v`: Model of the settings and the names of levels used by several threads: polog/core/stores/settings/setting_point.py 41, 50-79, 102-118 and 127-173 (set, locked_get, share_lock_object), settings_store.py 243-283 (__init__, __getitem__, __setitem__), polog/core/stores/levels.py 14-23, config.py 26-69. What a single assignment checks is Settings_Model. One move is one access to shared state. The actions (setting_point.py 77) are not here: they write no setting; those that take other locks are in Eng_Model. SettingsStore() was created before the threads began.
* `React_Model.v`: The actions of two settings while several threads assign them: polog/core/stores/settings/setting_point.py 66-79 and 120-125, actions/decorator.py 15-29, actions/integration_with_logging.py 44-55, actions/set_log_as_built_in.py 6-18, settings_store.py 243-262. The assignments themselves are Race_Model: an action is one more move, between lines 76 and 78 of setting_point.py, made while the lock is held. The filters of logging's root logger and what they do to a record are Logging_Model. Simplified: adding a filter and removing one is one step; SettingsStore() was created before the threads began. The action of fields_intersection is in Act_Model, that of pool_size in Eng_Model.
* `Reg_Model.v`: Model of the handler registry: polog/config.py 72-144 over polog/core/stores/handlers.py 5-7. A handler object is a number (its identity, Python's id()); None is Python's None.
* `Rot_Model.v`: Model of the rotation rules: tokens and their patterns (polog/handlers/file/rotation/rules/rules/tokenization/, below "tok/"), the size rule, the rule elector, the parser and the reading of the rotation command (rotation/rotator.py); and of the lock specification (polog/handlers/file/locks/double_lock.py 33-59).
* `Settings_Model.v`: Model of the settings and of the level names: polog/core/stores/levels.py, polog/core/stores/settings/setting_point.py, polog/core/stores/settings/settings_store.py and config.set / levels / standard_levels (polog/config.py 26-69). Sequential: every config.set below runs to completion (the lock of setting_point.py 66 is what serialises them; the engine part of the model treats threads). Actions (setting_point.py 120-125) run escaped and write no setting (actions/*.py), so they are left out here; the one that reloads the engine is modelled with the engine.
* `Sig_Model.v`: Model of polog/core/utils/signature_matcher.py. A callable is seen through the parameters that inspect.Signature reports for it: name, kind and whether there is a default (the comparison of a default with Parameter.empty is taken to be faithful, i.e. no default has an odd __eq__).
* `Single_Model.v`: Model of polog/core/utils/read_only_singleton.py for one class, with any number of threads.
* `Smtp_Model.v`: Model of polog/handlers/smtp/smtp_dependency_wrapper.py: the sending of letters by any number of threads through one handler. The connection is kept in an attribute of the object shared by the threads. Every call of smtplib is one step (simplified: in reality two calls on one connection can also overlap), and so is every thread's turn to take the next letter. Whether the server does what it is asked is decided by the label of the step; on a connection that was closed no call succeeds.
* `Supp_Model.v`: Which exceptions are suppressed, and the level of errors. polog/core/utils/exception_is_suppressed.py, polog/core/utils/get_errors_level.py, polog/loggers/finalizer.py 150-178. Classes are numbers; a hierarchy lists the bases of every class, and bases are created before the class itself. Simplified: isinstance follows the bases only (no __instancecheck__, no virtual subclasses).
* `Tasks_Model.v`: "with log:" in several threads and asyncio tasks. polog/loggers/router.py 16, 126-157: the stack of entered objects is a list object stored in a context variable. A thread begins with an empty context; an asyncio task begins with a copy of the context of the task that created it, so the two variables refer to the same list object. append and pop change that object in place. One step is one __enter__ or one __exit__ of the router (both run without interruption inside one event loop; threads never share a list).
* `Text_Model.v`: The texts of objects: str() and repr() of a record (log_item.py 59-78), of the object behind log(...) (finalizer.py 110-122), of the settings (settings_store.py 291-301) and of one of them (setting_point.py 47-48), of the weak dictionary (dictionary.py 48-56), of rotation rules (abstract_rule.py 24-27) and tokens (abstract_token.py 36-40). A value is a string or something else; of the latter only the text that str() gives is kept. [id] stands for the decimal text of id(self).
* `Time_Model.v`: Model of BaseFormatterFieldsExtractors.time_of_work (polog/handlers/file/base_formatter_fields_extractors.py 207-219): the duration in a log line. A duration is a number of units of 10^-k seconds, k = 8 in the code: what f'{var:.8f}' rounds to (that rounding is Python's).
* `Trace_Model.v`: Model of polog/core/utils/get_traceback.py and cut_traceback.py, and of their use on an exception that passes through functions with and without logging. A traceback is the list of its frames, the outermost first (tb_next is the tail); Python puts a frame in front when the exception comes to it, and does not when a bare raise sends it on.
* `Tree_Model.v`: Model of polog/data_structures/trees/named_tree (tree.py, walker.py, projector.py). Nodes live in an explicit heap (a list; a node's identity is its index), because the projection of a tree shares node objects with its source. Nodes are never freed: an unreachable node is simply not reached any more. Simplified: locks are not modelled here (every method body below runs under the node's RLock); [keys_separator] is fixed to its default "." (the only value used by polog: core/stores/handlers.py 5-7 and projector.py 24 use the default).
* `User_Model.v`: Engines written by the user: config.set(engine=...), polog/core/engine/engine.py 29-139, core/stores/settings/setting_point.py 66-79, 110-125, settings_store.py 25-66, 127-133, actions/reload_engine.py, core/utils/exception_escaping.py. Eng_Model has the threads and polog's own engines, which never raise; here the engines are anything, and the calls come one after another: an operation that waits for a lock nobody will release is [Stuck], and what follows it is done by other threads. Simplified: the checks of values (Settings_Model); what an engine does when it is given a record is only to return or to raise; started is not set by hand (property C54 has this).
* `Weak_Model.v`: Model of polog/data_structures/wrappers/weak_linked/dictionary.py on top of weakref.WeakKeyDictionary. Objects are numbers, compared and hashed by identity; the dictionary does not keep its keys and values alive, so an object may die at any moment ([WDie]). Then all weak references to it are cleared at once and the callbacks of the references that still exist are due; they run in any order ([WCb]) and, with several threads, other operations may come in between. The methods hold the lock for their whole effect and are single steps. Iteration during changes is not modelled.
* `Writer_Model.v`: Model of the construction of the file handler: polog/handlers/file/writer.py 18-32 and 67-82, file_dependency_wrapper.py 14-64, locks/double_lock.py 14-18 and 61-76, locks/file_lock.py 14-25; what it does to the files. The reading of the rotation command and of lock_type is Rot_Model, the writing of records File_Model. Not modelled: other classes passed as file_wrapper, base_formatter or rotator; an attribute of a file object that cannot be read.

## Plan and result per property

* **C01** The handler tree behaves as a map from dotted paths to values. Plan: heap-of-nodes model of the tree (node = name/value/ordered children/parent), history = list of ops; refinement to a path->value map by induction over the history. Result: proved; Refinement of the heap-of-nodes model to a finite map over every history, including interleaved projections; a rejected operation changes no later answer. Theorems: C01_keys, C01_tree_is_map, C01_rejected_changes_nothing.
* **C02** Iterating a handler tree yields each stored value exactly once, in breadth-first order, and len counts them. Plan: layered BFS on the node heap; proof that BFS of a well-formed tree is a permutation of the stored values sorted by depth. Result: proved; Breadth-first order, multiplicity and length, for every reachable tree. Theorems: C02_iteration.
* **C03** Membership in a handler tree means some stored path goes through it. Plan: invariant 'every childless non-root node holds a value' preserved by every op. Result: proved; Exact for histories of stores and deletions; after projections only one direction holds and the other is refuted by C03_after_projection_refuted. Theorems: C03_membership, C03_membership_dot, C03_membership_after_projections, C03_after_projection_refuted.
* **C04** A projected local tree shares storage with the tree it was projected from. Plan: same heap shared by source and projection; frame lemmas under later mutations, refutation by computation. Result: proved; Aliasing proved under the exact condition that no deletion leaves the projected path empty; without it refuted by C04_after_prune_refuted. Theorems: C04_projection_follows, C04_projection_hides_the_rest, C04_projection_total, C04_after_prune_refuted.
* **C05** Asking for handlers by name never removes or replaces registered handlers, and makes exactly the asked names' prefixes unregistrable. Plan: projection modelled on the registry heap; frame lemma + characterisation of `in`. Result: proved; For every registry state reached by any program; the blocked names are characterised exactly (if and only if). Theorems: C05_get_handlers_keeps, C05_get_handlers_blocks, C05_projection_keeps_values, C05_projection_presence.
* **C06** A rejected configuration change leaves the setting as it was; an accepted one stores the converted value. Plan: one record per setting point, generic `set` procedure; per-point case analysis. Result: proved; Against an independent table of documented ranges, exceptions and conversions, for every configuration reachable by any program; values compared by a finite abstraction of Python values. Theorems: C06_accepted_or_unchanged, C06_keywords.
* **C07** Cross-setting consistency is never violated. Plan: invariant over sequences of set calls. Result: proved; Invariant over every history of config.set and level registrations. Theorems: C07_cross_consistency.
* **C08** 'started' flips to True at most once and never back. Plan: invariant over sequences of set calls. Result: proved; Monotone and exclusive after being set; only True is ever accepted. Theorems: C08_started_once, C08_never_false, C08_boolean.
* **C09** Every setting always holds a legal value. Plan: invariant over sequences of set calls and level registrations. Result: proved; Every reachable configuration; bool counts as int (a level registered as True can be stored). Theorems: C09_always_legal, C09_always_present.
* **C10** Level names: look-up returns the last number registered for the name; the reverse name is the last name given to that number. Plan: two association lists; induction over registrations. Result: proved; Look-ups characterised by the history of registrations; the round trip holds exactly when the name was not re-registered, refuted otherwise by C10_stale_name_refuted. Theorems: C10_get, C10_level_name, C10_round_trip, C10_unnamed, C10_stale_name_refuted.
* **C11** Every handler attached to a record is called exactly once, in order, whatever other handlers do. Plan: trace semantics of executing a record; induction over handlers. Result: proved; Handlers and extractors are arbitrary total functions of the record and a world state that may raise; each is called once, in order, after all extraction. Theorems: C11_every_handler_once, C11_no_data.
* **C12** Records are totally ordered by time, consistently across operators and hashing. Plan: decision functions over optional times; order laws. Result: proved; Total preorder on times and agreement of the six operators for records with comparable times; equality is not reflexive for a record without time (C12_reflexive_refuted). Theorems: C12_operators, C12_total_order, C12_incomparable, C12_reflexive_refuted.
* **C13** Extra fields never overwrite record data unless field intersection is enabled, and a failing extractor affects only itself. Plan: fold over extractors; induction. Result: proved; For every list of extractors and every raising behaviour. Theorems: C13_existing_kept, C13_field_value, C13_called, C13_sees, C13_other_fields, C13_raising_extractor.
* **C14** No record is handled twice: every accepted record is handled at most once and never invented. Plan: transition system of writers/workers/reload; invariant over all schedules. Result: proved; Over every interleaving, including nested writes, reloads and the exit hook; when handlers do not log the number of calls is tied to the threads' programs (C14_written_by_threads). Theorems: C14_not_invented, C14_at_most_once, C14_handed_over, C14_same_instance, C14_written_by_threads.
* **C15** Stopping an engine flushes it. Plan: same transition system; invariant at the end of stop. Result: proved; Also in the strong form C15_flushed: records put before the stop began are executed whatever is put later. Theorems: C15_flushed, C15_stop_flushes, C15_workers_exit.
* **C16** Record order: synchronous engine and one-worker engine preserve put order; dequeue order is always put order. Plan: same; history variables for put order and start order. Result: proved; FIFO at every moment (every prefix of every trace); one worker; synchronous engine. Theorems: C16_fifo, C16_one_worker, C16_pool_of_one, C16_synchronous, C16_no_pool.
* **C17** The queue never exceeds max_queue_size. Plan: same; invariant. Result: proved; Per instance, and with the configured numbers when the settings are not changed; the values of the settings themselves while they are being changed by C17_values and C17_assignment (the instance in use has the values of the settings unless a reload is going on: C18). Theorems: C17_bounds, C17_settings, C17_values, C17_assignment.
* **C18** Reloading the engine loses no record, provided no writer is caught between choosing the engine and putting. Plan: same; invariant plus witness schedule. Result: proved; The positive half for every interleaving; the unconditional claims are refuted by C18_no_loss_refuted and C18_writer_stuck_refuted (lost / stuck in every continuation). Theorems: C18_new_records_elsewhere, C18_old_stopped_first, C18_lost, C18_stuck, C18_reload_flushes, C18_no_loss_refuted, C18_writer_stuck_refuted.
* **C19** First write initialises exactly once; it can deadlock with a configuration change, and with nothing else. Plan: transition system with the two locks; invariant + progress. Result: proved; Deadlock freedom is refuted (C19_deadlock_refuted) and the exact shape of the only deadlock is proved: C19_finish_or_embrace is a progress theorem from every reachable state, by a decreasing measure. Possibility (a schedule exists), not fairness, is what is proved. Theorems: C19_initialised_once, C19_no_crash, C19_embrace_for_ever, C19_finish_or_embrace, C19_started_no_embrace, C19_started_finishes, C19_unchanged_finishes, C19_deadlock_refuted.
* **C20** Shutdown hook: everything queued is executed before exit unless the time limit fires; writes after the hook never return. Plan: same system; hook as a thread. Result: proved; For multi-threaded instances; a synchronous engine is not waited for by the hook. Theorems: C20_flushed, C20_current_flushed, C20_nothing_later, C20_lock_kept.
* **C21** A handler that logs can deadlock a reload. Plan: same system with a nested write; stuck-state witness; progress without nesting. Result: proved; Witness state that no continuation leaves; without nested writes no worker is ever inside write and C19_started_finishes applies. Theorems: C21_cycle_for_ever, C21_quiet_workers_free, C21_deadlock_refuted.
* **C22** However many logging decorators are stacked, one call writes at most one record. Plan: function objects as ids with a registry state machine; induction over decoration stacks. Result: proved; For linear stacks over functions nobody else decorates; sharing a wrapper between two stacks and the methods list are refuted by witnesses. Theorems: C22_at_most_one_layer, C22_last_explicit_decorator_wins, C22_last_class_decorator_wins, C22_reused_wrapper_refuted, C22_priority_after_methods_list_refuted, C22_methods_list_strips_refuted.
* **C23** @unlog wins in any position. Plan: same. Result: proved; Same model; the flag of the surviving unlog layer and its loss under @log are characterised. Theorems: C23_unlog_wins, C23_flag_of_the_last_unlog, C23_flag_lost_under_log, C23_reused_wrapper_refuted.
* **C24** Dynamic scope of full unlog. Plan: call-tree interpreter with the context variable. Result: proved; Interpreter of arbitrary call trees; a record event inside the body forces an earlier EOn or a different EOff. Theorems: C24_silence_inside, C24_silence_inside_setting, C24_status_is_the_last_order, C24_on_after_return, C24_partial_unlog_changes_nothing, C24_everything_inside_refuted.
* **C25** Automatic logging is transparent to the caller. Plan: interpreter of one decorated call with arbitrary callee outcome. Result: proved; Simulation between the decorated and the bare program for every call tree; plus the exact single-call outcome. Theorems: C25_transparent, C25_outcome_of_a_call, C25_unregistered_level_raises, C25_always_transparent_refuted.
* **C26** A record is written exactly when its level reaches the threshold. Plan: decision functions of the decorated call. Result: proved; Per call from any state after any body; counting invariant over all programs; the "message level decides" reading is refuted. Theorems: C26_success, C26_failure, C26_one_record_per_call, C26_message_level_counts_refuted.
* **C27** An exception propagating through nested logged functions is logged once. Plan: nested calls, exception object with the `checked` mark. Result: proved; At most one: invariant over all programs. Exactly one / none / each passing layer: induction over the chain of nested calls. Theorems: C27_at_most_one_record, C27_innermost_decides, C27_without_deduplication.
* **C28** message() edits the record of the innermost running logged call and only it. Plan: call-tree interpreter with the message context variable. Result: proved; Context variable as a function of the event sequence; documented scoping refuted by three witnesses. Theorems: C28_record_is_overlaid, C28_which_message, C28_manual_records_untouched, C28_survives_nested_call_refuted, C28_stays_in_its_call_refuted, C28_messages_add_up_refuted, C28_message_fields.
* **C29** suppress(): exactly the listed exceptions are swallowed. Plan: class hierarchy as a parent relation (mro lists); decision function. Result: proved; issubclass against the reflexive transitive closure of the base relation for acyclic hierarchies. Theorems: C29_decorator, C29_block, C29_suppress_arguments_silent, C29_suppress_arguments_loud, C29_suppress_call, C29_never_base_exceptions_refuted.
* **C30** handlers= and extra_fields= of a decorator: paths follow the global handlers, objects are added, Ellipsis adds the default fields. Plan: local trees with own values on the heap of C01-C05; frame lemmas over histories with decorators; list processing of the fields against a declarative specification. Result: proved; On the tree model of C01-C05 with decorators in the history; names of C45. The caveat about deletions that empty a path is that of C04. is_handler is a parameter (C47). Theorems: C30_global_unchanged, C30_handlers_refused, C30_handlers_meaning, C30_handlers_accepted, C30_handlers_generated_names, C30_fields_accepted, C30_fields_refused, C30_fields_meaning, C30_argument_afterwards, C30_same_argument_twice_refuted.
* **C31** with log(...) as context manager nests properly. Plan: stack machine for enter/exit; induction over well-nested sequences. Result: proved; For programs whose suppress arguments are exceptions; the failing case is a witness. Theorems: C31_entered_once, C31_exit_finalises_own_block, C31_one_record_per_block, C31_any_nesting_refuted.
* **C32** A context-manager block writes exactly one record with the right success flag, and swallows an exception only if suppressed. Plan: finalizer exit function. Result: proved; Field contents of the record are stated by key; the data of a block is a dictionary (no repeated keys). Theorems: C32_exit, C32_exit_succeeds, C32_success_can_be_overridden_refuted, C32_own_exception_leaves_refuted.
* **C33** Dotted levels and keyword arguments. Plan: argument merging functions. Result: proved; The other arguments of the call are arbitrary. Theorems: C33_dotted_level_wins, C33_any_name_is_accepted, C33_manual_record, C33_with_unregistered_raises, C33_argument_wins_refuted, C33_only_registered_refuted.
* **C34** Manual records: field aliases, types and silent mode. Plan: argument conversion functions over a universe of Python values. Result: proved; Python values by a finite abstraction; str(exception) may raise; stated through an independent relation of expected fields. Theorems: C34_exactly_the_expected_fields, C34_loud_mode_raises, C34_silent_mode_only_KeyError, C34_unknown_level_raises, C34_two_aliases_raise, C34_record_keeps_fields, C34_duplicates_always_noticed_refuted, C34_whole_record.
* **C35** Manual record level defaulting. Plan: decision function. Result: proved; C35_level_of_call states the level in terms of the arguments only. Theorems: C35_level_and_threshold, C35_level_of_call, C35_exception_makes_failure.
* **C36** Smart assert. Plan: decision function producing outcome and records. Result: proved; Truth value, text and falsity of the argument are arbitrary outcomes (value or Exception); BaseException and a change of settings during the call are not modelled. Theorems: C36_message, C36_table, C36_safe, C36_true_is_silent, C36_false_raises, C36_exactly_as_assert_refuted, C36_one_record_refuted.
* **C37** Handler filtering (only_errors / filter / alt). Plan: decision function with arbitrary predicates. Result: proved; Handlers as values with arbitrary functions of a world state; relational specification of a try, induction over chains of alternatives. Theorems: C37_call, C37_acts_when, C37_done_or_alt, C37_chain, C37_constructor, C37_never_both_refuted, C37_falsy_answer_refuses_refuted, C37_filter_failure_goes_to_alt_refuted.
* **C38** Memory handler stores everything in order. Plan: history refinement. Result: proved; Step-level model of the semaphore sections; existence of a linearisation as an invariant. Theorems: C38_history, C38_one_thread, C38_kept_list, C38_progress, C38_last_is_last_refuted, C38_first_init_race_refuted.
* **C39** Rotation loses and duplicates no byte. Plan: step-level transition system of inodes, names, buffers and locks; invariant over all schedules. Result: proved; Step-level model of inodes, names, file objects with buffers, the two locks of a handler and the steps of writing; theorems for one file system and new names, for one thread with forced flush also over two file systems, refutations otherwise. The cross-process file lock is left out: it only removes interleavings. Theorems: C39_other_file_system, C39_names_repeat_refuted, C39_other_file_system_refuted, C39_no_lock_refuted, C39_reopen_failure_refuted, C39_every_record_accepted, C39_flushed, C39_every_record_once, C39_one_thread_done, C39_nothing_lost, C39_one_handler, C39_other_files.
* **C40** Token patterns match like globs. Plan: index-based matcher as in the code with an explicit termination measure; declarative glob relation. Result: proved; Pattern language against an independent grammar, matcher against an independent glob relation; the IndexError and the unclosed bracket are stated and refute the natural claim. Recursion-depth limits of Python are outside the model. Theorems: C40_parse, C40_match, C40_edge_cases, C40_unclosed_bracket_refuted, C40_no_tokens_refuted.
* **C41** Size rules: 'N unit' triggers exactly when the file has reached N units. Plan: tokenizer + rule parser over characters. Result: proved; Rule texts, comma/semicolon lists, the >> command and the trigger; the characters that count as white space and int() are parameters (int() refuses unit names is a hypothesis, shown satisfiable). Theorems: C41_rule, C41_rule_text, C41_rules, C41_trigger, C41_command.
* **C42** Double lock gives mutual exclusion between threads and processes. Plan: transition system of processes x threads. Result: proved; flock per open file description, a threading.Lock per handler. The claim for both locks with several threads per handler is refuted by a schedule. Theorems: C42_threads_of_a_handler, C42_handlers_with_one_thread, C42_other_order_excludes_all, C42_all_can_finish, C42_both_locks_exclude_refuted, C42_file_lock_between_threads_refuted, C42_thread_lock_between_handlers_refuted.
* **C43** Lock specification parsing. Plan: string functions. Result: proved; Exact acceptance and result for every string, None and other values; invariance under permutation of the names. Theorems: C43_parse, C43_none_and_other, C43_only_names_matter.
* **C44** Error level resolution. Plan: decision function. Result: proved; Declarative maximum, unique. Theorems: C44_resolution, C44_never_below.
* **C45** Automatically generated handler names never repeat. Plan: name generator over indices; injectivity. Result: proved; Tables transcribed; any shuffle. CPython recursion limit (the generator recurses per epoch) is not modelled. Theorems: C45_roman, C45_distinct, C45_count, C45_exhausted.
* **C46** Singleton creation race. Plan: transition system. Result: proved; Steps are single reads and writes of the class attributes; the naive claim is refuted by a schedule. Theorems: C46_created, C46_own, C46_settles, C46_first_alone, C46_one_instance_refuted.
* **C47** Signature matching. Plan: signature classification. Result: proved; Definitions as structured parameter lists; str.isidentifier is a parameter; defaults are compared by a decidable equality. Theorems: C47_match, C47_exact, C47_order, C47_handler, C47_refuses, C47_total, C47_callable, C47_accepted_is_callable_refuted, C47_callable_is_accepted_refuted.
* **C48** Weak dictionary behaves as a map on live keys. Plan: history with deaths; refinement to a map. Result: proved; Objects by identity; callbacks may come any time after the death; iteration while changing is not modelled. Theorems: C48_sound, C48_clean, C48_map, C48_answers, C48_concurrent_map_refuted, C48_items, C48_items_refuted.
* **C49** Handler registry: names are unique, deletion is exact. Plan: registry functions on top of the tree model. Result: proved; Exact effect of every add/delete call; the documented ban on registering one object twice is refuted by C49_same_object_twice_refuted. Theorems: C49_add_never_replaces, C49_add_named, C49_duplicate_name_refused, C49_duplicate_object_refused, C49_delete_name, C49_delete_object, C49_add_several, C49_add_fails_in_the_middle, C49_add_accepted, C49_delete_several, C49_same_object_twice_refuted, C49_prefix_blocked.
* **C50** Integration with the standard logging module. Plan: filter function. Result: proved; On top of the model of manual logging; the filter chain of logging is modelled. Theorems: C50_record, C50_absent, C50_refused_before, C50_other_loggers, C50_errors, C50_invisible_refuted, C50_all_loggers_refuted, C50_install.
* **C51** Field container overlays defaults. Plan: overlay functions. Result: proved; Membership, iteration and items for every content; live defaults. Theorems: C51_overlay, C51_live.
* **C52** Time-of-work and field rendering in the file formatter. Plan: string-level function. Result: proved; For any number of decimals; rounding of the float to 8 decimals is left to Python. Theorems: C52_fraction, C52_whole, C52_lost, C52_zero, C52_faithful_refuted, C52_fractions_differ.
* **C53** A record reads as a dictionary and cannot be written. Plan: decision functions over the operations of a mapping. Result: proved; All read operations against the dictionary; writes raise and change nothing. Theorems: C53_setters, C53_reads_as_dict, C53_empty_before_data, C53_read_only.
* **C54** Setting 'started' by hand before the first write disables writing. Plan: engine transition system with a command that sets 'started'. Result: proved; For all continuations; witness and repair by examples. Theorems: C54_no_engine, C54_started_by_hand.
* **C55** The engine in use always matches the settings. Plan: engine transition system; invariant. Result: proved; Invariant over all interleavings. Theorems: C55_instance_fits, C55_latest_in_use.
* **C56** Class decorators wrap exactly the chosen functions, once each. Plan: fold over the attribute list of a class, commuting with the per-function stack of C22. Result: proved; Attributes by name in order; inherited attributes are modelled as the list dir() gives. Theorems: C56_class_decorators, C56_one_class_decorator, C56_bad_name_fails, C56_missing_name_AttributeError, C56_class_in_methods.
* **C57** What the record of a logged call says. Plan: enumeration of the field names of a record. Result: proved; All field names enumerated; everything else absent. The names taken from the function object are module, function and class. Theorems: C57_success_record, C57_failure_record.
* **C58** with-blocks of concurrent tasks and threads. Plan: transition system of threads and tasks with copied contexts; invariant. Result: proved; All interleavings of enter, exit, task and thread creation; tasks created inside a block are refuted. Theorems: C58_tasks_do_not_interfere, C58_threads_begin_empty, C58_tasks_created_in_a_block_refuted, C58_errors_never_refuted.
* **C59** Rotation by size moves no small file and lets the file exceed the limit by at most one record. Plan: step-level file model of C39; invariants under the rotator lock. Result: proved; On the model of C39; the rule is any decision that says yes only at or above the limit (exactly so for the bound). Theorems: C59_two_handlers_refuted, C59_overshoot_of_threads_refuted, C59_no_small_file_moved, C59_overshoot.
* **C60** Names of rotated files. Plan: character lists; injectivity and order of fixed-width digits. Result: proved; str(datetime) and os.path.join (posix) are modelled; the dates range over all values the class allows. Theorems: C60_names_differ, C60_paths_differ, C60_in_the_directory, C60_sorted, C60_whole_second_refuted.
* **C61** The line that the file handler writes for a record. Plan: transcription of the extractors; the meaning of a record as an independent type, a relation between Python values and meaning, induction over the custom fields; invariant over the history for the frozen widths. Result: proved; The meaning of a record is an independent type (entry) related to the Python values by the relation carries; the json module, str.isspace and str() of values are parameters. Tracebacks are lines of traceback.format_tb whose path and function name contain no white space (refuted otherwise). Theorems: C61_one_line_refuted, C61_unambiguous_refuted, C61_custom_shown_refuted, C61_empty_left_out_refuted, C61_traceback_refuted, C61_aligned_refuted, C61_line, C61_columns, C61_fields, C61_produced, C61_lost, C61_raw.
* **C62** Extra fields: the class field and their registration. Plan: registry as two association lists; exact effect of every call and an invariant over all histories; signatures by C47. Result: proved; Callables are seen through inspect.Signature (C47); fields by identity. Theorems: C62_created, C62_get_data, C62_registered, C62_effect, C62_asked, C62_text_refuted, C62_visible_refuted.
* **C63** Arguments and results written as json are shown again in the log line. Plan: json documents as a type, dumps and loads as parameters; composition with the formatter's reading functions. Result: proved; dumps and loads are parameters; that they are inverse is a hypothesis of the round trip only, shown satisfiable. Theorems: C63_none, C63_fails, C63_arguments, C63_result, C63_one_distinct, C63_type_refuted, C63_distinct_refuted.
* **C64** The fields of a with-block. Plan: call model (programs with continuations); last-wins reading of the argument sets by induction over the list of calls. Result: proved; On the call model of C17-C29; the record itself is the one of C34_whole_record. Bodies that call the object and then end are blocks without further nesting; edits in nested blocks are covered by C64_edit. Theorems: C64_arguments, C64_edit, C64_block, C64_given_time_kept_refuted.
* **C65** The e-mail handler: its arguments, its letters, its repr. Plan: functional model of the constructor checks and of get_content with the assemblers as parameters; an independent list reading of the default text, by induction over the fields. Result: proved; The email library (MIMEText, headers, encoding of the text) is not modelled: a letter is its subject, text, kind and addresses. Three refutations show what the text and repr do not tell. Theorems: C65_constructor, C65_repr_hides_password, C65_repr_tells_all_refuted, C65_text, C65_subject, C65_assemblers, C65_one_assembler, C65_text_determines_refuted.
* **C66** Letters sent by several threads through one e-mail handler. Plan: small-step model of the threads over the shared connection; invariants over all schedules; witness schedules for the refutations. Result: proved; Interleaving of the atomic steps of create_smtp_server and send; overlapping calls of smtplib on one connection are not modelled (each call is one step). Four refutations with witness schedules. Theorems: C66_returned_iff_accepted, C66_alone, C66_working_server, C66_working_server_many_refuted, C66_connections_ended_refuted, C66_own_connection_refuted, C66_refused_connection_ended_refuted.
* **C67** The limit of time of the exit hook. Plan: small-step model of wrapper, timer thread and pending interrupt over an arbitrary interruptible function; invariants over all schedules. Result: proved; Small-step model of wrapper, timer and interrupts; real time is not modelled: the timer may fire at any moment after it was started. Four refutations with witness schedules. Theorems: C67_undisturbed, C67_timeout_has_a_cause, C67_interrupted, C67_cancelled, C67_no_limit, C67_argument, C67_delay_given, C67_result_kept_refuted, C67_no_stray_interrupt_refuted, C67_quiet_afterwards_refuted, C67_ctrl_c_passes_refuted.
* **C68** The traceback and the local variables of a logged exception. Plan: stack unwinding as a fold over the kinds of functions; traceback = list of frames; induction over the stack. Result: proved; format_tb, json.dumps and json of variables are parameters; frames are abstract. Three refutations. Theorems: C68_caller_sees, C68_no_wrapper, C68_logged, C68_manual, C68_fallback, C68_handled, C68_locals_of_last_frame_refuted, C68_manual_locals_refuted, C68_own_traceback_refuted.
* **C69** log_is_built_in and fields_intersection take effect when they are assigned. Plan: state machines: histories of assignments (fold), and interleavings of first creations with assignments (invariant); witness schedules for the refutations. Result: proved; Small-step model of the first creation of records against assignments of the setting; assignments themselves are serialised by the lock of the point. Four refutations. Theorems: C69_value, C69_built_in, C69_assignment, C69_restores_refuted, C69_while_on_refuted, C69_steady, C69_change_repairs, C69_sequential, C69_always_refuted, C69_again_refuted.
* **C70** Names of levels. Plan: the concrete check of names put into the configuration model; every registered name is allowed or standard, by induction over histories. Result: proved; On the configuration model of C06-C10; attributes that a program adds to the loggers itself are not modelled. Two refutations. Theorems: C70_registered, C70_reachable, C70_hides_nothing, C70_several, C70_all_or_nothing_refuted, C70_writable_refuted.
* **C71** The text of a tree of handlers. Plan: invariant: every node knows its full name and parents never change; the depth-first walk annotated with paths gives the lines; injectivity of the text by cutting it into lines. Result: proved; On the heap model of the tree (C01-C05); assumes that the empty string is not an identifier. The order of siblings is not claimed. Not modelled: the text shown when recursion is too deep, a filler other than the tab. Two refutations. Theorems: C71_empty, C71_text, C71_lines, C71_local, C71_readable, C71_same_text, C71_values_refuted, C71_determined_refuted.
* **C72** Creating a file handler. Plan: each stage of the constructor specified on its own (checks, file, locks, rotation), then all outcomes by composition; the cutting at >> specified as leftmost cuts. Result: proved; Arguments as in C65; the file system is a map from names to texts and open() fails by name. Classes passed in place of the wrapper, formatter and rotator are not modelled. Three refutations. Theorems: C72_accepted, C72_object, C72_files, C72_refusals, C72_refused_before, C72_keeps, C72_logs_survive, C72_default_lock, C72_refused_leaves_nothing_refuted, C72_no_log_is_emptied_refuted, C72_file_lock_given_refuted.
* **C73** Settings changed by several threads. Plan: simulation: a ghost configuration changed when the value is checked, equal to the real one but for the point being written under the lock; what a thread is owed is a function of where it is; consistency from a second configuration with the pending change mark; induction over runs. Result: proved; One move is one access to shared state; dictionary operations are atomic. The order is over keywords, checked against the sequential model of C06-C10. Actions are left out (they write no setting; reload_engine is C18-C19), so never-blocking does not cover locks they take. Three refutations. Theorems: C73_locks, C73_serial, C73_alone, C73_consistent, C73_started, C73_never_stuck, C73_bounded, C73_calls, C73_call_atomic_refuted, C73_levels_alone, C73_levels_round_trip_refuted, C73_unlocked_read_refuted.
* **C74** Handlers changed while a record is on its way to them. Plan: a node waiting in a layer is in its place or cut off for good and empty (a relation between heaps, proved for every operation and composed); the names waiting are pairwise different by depth and parent; a name that stays registered always has a waiting node above it; induction over the mixed run; the end by the rank of nodes. Result: proved; The two generators as a state machine over the heap of C01-C05; an operation on the registry is one event (it holds the lock of the tree). A dictionary that changes but keeps its size while being iterated is not followed further. The tree is the registry; own handlers of a logger are not covered. Two refutations. Theorems: C74_registered, C74_calls, C74_once, C74_order, C74_all, C74_all_value, C74_added, C74_child_of_running, C74_undisturbed, C74_ends, C74_ends_well, C74_unchanged, C74_no_end_in_sight, C74_put_back_refuted, C74_threads_refuted.
* **C75** Which calls the decorators of a class leave as they were. Plan: invariant of every history: an original does what its wrapper does, and the entry of a name in a class realises the definition that comes first in the order of that class; the exact effect of one decorator by following its loop over the names. Result: proved; Callables are terms (functions, other callables, wrappers, bound methods) with the equality of Python; getattr on classes and instances follows the descriptor protocol; the method resolution order is given. Keyword arguments, attributes of instances and metaclasses are left out. Seven refutations. Theorems: C75_layer, C75_unlog_stays, C75_two_layers_refuted, C75_methods, C75_through_the_class, C75_class_method, C75_class_method_own, C75_without_class_decorators, C75_data, C75_no_new_names, C75_single_inheritance, C75_other_classes, C75_after_the_decorator, C75_exactly_which, C75_static_on_instance_refuted, C75_class_method_refuted, C75_nested_class_refuted, C75_not_listed_refuted, C75_class_method_priority_refuted, C75_diamond_refuted.
* **C76** The texts of records, of log objects, of settings, rules, tokens and of the weak dictionary. Plan: texts split uniquely at the first occurrence of a character that the part before it does not contain; induction over the fields; the forged record is constructed for every record. Result: proved; A value is a string or something of which only the text given by str() is kept. Three refutations. Theorems: C76_empty, C76_repr, C76_record, C76_log_object, C76_token, C76_rule, C76_settings, C76_setting, C76_weak_empty, C76_forged_refuted, C76_settings_quotes_refuted, C76_weak_string_refuted.
* **C77** The times of records. Plan: the interpreter of calls with readings of the clock numbered in the order in which they are taken; induction over programs: each record tells a pair of readings, and the pairs written are nested or in order. Result: proved; For programs whose log.suppress(...) arguments are exceptions; Call_Model is proved to be this model with a clock standing still. Three refutations. Theorems: C77_readings, C77_times, C77_call, C77_standing_clock, C77_never_negative_refuted, C77_written_in_order_of_time_refuted, C77_before_or_inside_refuted.
* **C78** What settings do outside of the store, under concurrent changes. Plan: the threads of C73 with the action as one more move under the lock; invariant: outside agrees with the stored value, or one thread holds the lock with the action due and outside agrees with the old value. Result: proved; Builtins.log is only changed by polog here (what others do to it is C69); adding and removing a filter is one step. Two refutations. Theorems: C78_same_settings, C78_at_rest, C78_always, C78_logging_off, C78_never_stuck, C78_reading_tells_refuted, C78_off_and_on_refuted.
* **C79** Engines given by the user with config.set(engine=...). Plan: constructor, write and stop of the engines are functions of the whole history; the wrapper with its two locks is a state machine with the outcome Stuck; invariants over lists of operations and a simulation with the story an observer expects. Result: proved; Operations one after another, by any threads (polog's own engines under threads are C14-C21, C54, C55). Three refutations. Theorems: C79_current_engine, C79_stopped_before_next, C79_setting_in_force, C79_lazy, C79_write, C79_not_after_stop, C79_never_stuck, C79_stuck_for_ever, C79_story, C79_first_fails, C79_stopped_not_used_refuted, C79_reading_settings_refuted, C79_logging_constructor_refuted.
* **C80** The garbage collector does not change what the decorators do. Plan: the registry with weak lookups beside the strong one of Deco_Model; objects die when no living object outside the dying ones refers to them; simulation: the registries agree about the living, and a registry entry names only what its wrapper keeps alive. Result: proved; Function objects compared by identity; collections between calls of decorators. Theorems: C80_same_answers, C80_same_registry, C80_original_alive, C80_replaced_is_free, C80_replaced_can_die, C80_no_leak.
* **C81** Making the object of the settings, once or several times. Plan: the initialisation as a list of single accesses, interleaved with events of others; invariant: what the steps already made have established, locks equal to those of the representative of the group; the filter by an invariant about what is still to be read and applied; refuted with an assignment in the middle. Result: proved; One initialisation at a time (they hold the lock of the class); an assignment with its action is one event; waiting for the lock of a point (set_store_object, set_name) is not modelled. Theorems: C81_never_raises, C81_finishes, C81_locks, C81_locks_stay, C81_points, C81_once, C81_filter, C81_never_twice, C81_filter_refuted.
