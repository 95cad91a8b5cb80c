{"id": "C01", "title": "The transition table is exactly what the configuration calls said", "statement": "After any sequence of configuration calls (some accepted, some rejected), the target the machine uses for a (state, event) pair is the one given by the last accepted when/receives/itX clause for a state and event of those names; pairs never mentioned have no target, and a clause never changes the target of any other pair.", "quantifier": "every sequence of configuration calls, every state and event name", "why_tests_cant": "the space of call sequences and names is infinite; tests try a handful of fixed scripts", "anchors": ["src/main/java/com/webotech/statemachine/GenericStateMachine.java: initialSate, when, receives, itEnds, itTransitionsTo, itDoesNotTransition", "src/main/java/com/webotech/statemachine/strategy/TransitionTask.java: execute"]}
{"id": "C02", "title": "Reserved names are never configurable", "statement": "A configuration call given a state named _END_, _UNINITIALISED_ or _NOOP_, or an event named _immediate_, is rejected with IllegalStateException; hence in every reachable configuration no user row carries a reserved state name, _END_ is a target only through itEnds and _NOOP_ only through itDoesNotTransition.", "quantifier": "every sequence of configuration calls, every name", "why_tests_cant": "must hold for every call position and every prior configuration", "anchors": ["src/main/java/com/webotech/statemachine/GenericStateMachine.java: assertNotReservedState, assertNotReservedStateEvent, reservedStateNames"]}
{"id": "C03", "title": "A rejected configuration call changes nothing", "statement": "If a configuration call throws, the configuration (initial state, clause under construction, every table entry) is exactly what it was before the call.", "quantifier": "every configuration state and every call", "why_tests_cant": "needs every (configuration, call) combination, including the NullPointerException paths", "anchors": ["src/main/java/com/webotech/statemachine/GenericStateMachine.java: initialSate..itDoesNotTransition, assert*"]}
{"id": "C04", "title": "The fluent call-order protocol", "statement": "Which configuration calls are accepted is determined by the call-order protocol: initialSate first and once; when only between clauses; receives/itX only inside a clause; a bare itEnds only on a state with no events; a sequence is accepted iff each call respects it. A configuration call may be made by any thread at any time, also on a running machine: it takes effect at one moment, throws iff it is not allowed in the configuration of that moment, changes the configuration of no other machine, and nothing but configuration calls changes a configuration.", "quantifier": "every sequence of configuration calls", "why_tests_cant": "the set of accepted sequences is infinite", "anchors": ["src/main/java/com/webotech/statemachine/GenericStateMachine.java: assertInitStateDefined, assertMarkedStateDefined, assertNoMappingsExistAtEnd, assertEventNotMapped"]}
{"id": "C05", "title": "Re-mapping an event is silently accepted (documented rejection is dead code)", "statement": "The code carries a check that should reject mapping the same event of the same state twice ('already transitions to'). Expectation: the second clause is rejected. Actual, proved: no configuration call in any history ever fails with that error; the second clause silently replaces the first.", "quantifier": "every sequence of configuration calls", "why_tests_cant": "absence of an error over all histories cannot be sampled", "anchors": ["src/main/java/com/webotech/statemachine/GenericStateMachine.java: receives line 94, assertEventNotMapped lines 151-158"]}
{"id": "C06", "title": "start() and startInState() are accepted exactly when they should be", "statement": "Executed without interference, start() throws iff no initial state is configured, or some configured (state,event) has no target, or the machine was already started; startInState(s) throws iff s is not configured or the machine was already started; a throwing call leaves the machine's started/ended flags and current state unchanged.", "quantifier": "every machine configuration and machine state", "why_tests_cant": "ranges over every configuration, including half-finished clauses", "anchors": ["src/main/java/com/webotech/statemachine/GenericStateMachine.java: start, startInState"]}
{"id": "C07", "title": "A machine starts at most once", "statement": "Over any schedule of any number of threads calling start()/startInState() (and anything else), at most one such call per machine returns normally, and once isStarted() has returned true it never returns false.", "quantifier": "every schedule, every number of threads, every user callback", "why_tests_cant": "needs all interleavings of racing starters", "anchors": ["src/main/java/com/webotech/statemachine/GenericStateMachine.java: start lines 232-240, startInState lines 261-266, isStarted"]}
{"id": "C08", "title": "fire() routing", "statement": "fire(e) does exactly one of: report onEventBeforeMachineStart (if the machine was seen not started), report onEventAfterMachineEnd (if seen started and ended), or hand the event to the event processing strategy; in the two reporting cases nothing is queued.", "quantifier": "every schedule, every machine state, every event", "why_tests_cant": "depends on every interleaving of fire with start/stop", "anchors": ["src/main/java/com/webotech/statemachine/GenericStateMachine.java: fire lines 285-293"]}
{"id": "C09", "title": "Events are taken for processing in the order accepted, exactly once", "statement": "For every event queue, at every moment of every execution: the sequence of events taken for processing is a prefix of the sequence of events accepted by fire(), each with the machine it was fired on, and what remains is exactly the queue content in order. This holds for any executor (any number of worker threads) and despite pair-object pooling.", "quantifier": "every schedule, any number of firing threads and workers, every user callback", "why_tests_cant": "ordering over all interleavings, including recycling of pooled objects", "anchors": ["src/main/java/com/webotech/statemachine/strategy/DefaultEventStrategy.java: processEvent", "src/main/java/com/webotech/statemachine/strategy/EventMachinePairPool.java: take, give", "src/main/java/com/webotech/statemachine/strategy/EventMachinePair.java"]}
{"id": "C10", "title": "No accepted event is stranded", "statement": "In every execution, whenever the executor is quiescent (no pending task, idle workers, no fire() call between queueing and submitting) and was not shut down, the queue is empty - even if callbacks, the UnexpectedFlowListener itself, or Errors kill drain tasks.", "quantifier": "every schedule, every user callback including throwing handlers", "why_tests_cant": "a liveness-style claim over all interleavings and all failure points", "anchors": ["src/main/java/com/webotech/statemachine/strategy/DefaultEventStrategy.java: processEvent lines 86-103"]}
{"id": "C11", "title": "Event processing implements the configured automaton", "statement": "With its own queue and a single-threaded executor, and while nobody calls stop/start/configuration methods, the callbacks made while processing are, event by event in queue order, exactly those of the configured automaton: begin notification, exit actions in order, entry actions in order, end notification (or unmapped handler / noop notifications), truncated at the first exception which is reported once; and getCurrentState()/isEnded() afterwards are the automaton's. Actions may themselves fire events and make any other API call except those excluded.", "quantifier": "every schedule, every configuration, every user callback that does not stop/start/reconfigure the machine, any number of firing threads", "why_tests_cant": "full functional correctness over all histories", "anchors": ["src/main/java/com/webotech/statemachine/strategy/TransitionTask.java: execute", "src/main/java/com/webotech/statemachine/strategy/DefaultEventStrategy.java: processEvent", "src/main/java/com/webotech/statemachine/NamedState.java: onEntry, onExit", "src/main/java/com/webotech/statemachine/GenericStateMachine.java: updateCurrentState, notifyStateMachineListener, stop"]}
{"id": "C12", "title": "The current state is always a configured one", "statement": "At every moment of every execution, including arbitrary stop/start races, getCurrentState() is null, the machine's _END_ state, its initial state, a state object given to an accepted itTransitionsTo of the machine whose table the strategy holds, or the argument of a successful startInState.", "quantifier": "every schedule and interleaving, every user callback", "why_tests_cant": "safety over all interleavings of all API calls", "anchors": ["src/main/java/com/webotech/statemachine/GenericStateMachine.java: updateCurrentState, start, startInState", "src/main/java/com/webotech/statemachine/strategy/TransitionTask.java: execute"]}
{"id": "C13", "title": "Transitions are atomic and never overlap (single-threaded executor)", "statement": "With a single-threaded executor every event's callbacks are made by one thread and all callbacks of one event precede all callbacks of the next event; a machine never runs two transitions at once.", "quantifier": "every schedule, every user callback, any number of firing threads", "why_tests_cant": "non-overlap must hold for all interleavings", "anchors": ["src/main/java/com/webotech/statemachine/strategy/DefaultEventStrategy.java: processEvent lines 87-103", "src/main/java/com/webotech/statemachine/strategy/EventProcessingStrategyFactory.java: getExecutor"]}
{"id": "C14", "title": "Unmapped events", "statement": "An event with no mapping in the current state causes exactly one call of the unmapped-event handler with that event and machine, no listener notification, no action, no state change; the machine goes on with the next event. The default handler logs one line naming the event and the current state and does nothing else.", "quantifier": "every configuration, state, event and schedule", "why_tests_cant": "all (state, event) pairs and all continuations", "anchors": ["src/main/java/com/webotech/statemachine/strategy/TransitionTask.java: execute lines 27-31"]}
{"id": "C15", "title": "itDoesNotTransition", "statement": "An event mapped with itDoesNotTransition causes exactly a begin and an end notification (from = current state, to = _NOOP_), no entry/exit action, and leaves the current state unchanged.", "quantifier": "every configuration, state, event and schedule", "why_tests_cant": "all configurations and histories", "anchors": ["src/main/java/com/webotech/statemachine/strategy/TransitionTask.java: execute lines 32-37"]}
{"id": "C16", "title": "Begin/end notifications are paired", "statement": "Whatever other threads do (stop, reconfigure, replace the listener), for each processed event there is at most one begin and at most one end notification, in this order, with the same event and to-state, and with the same from-state unless the event is mapped with itDoesNotTransition; a begin without end implies that an exception ended the processing or that the machine had no listener at some moment during it, an end without begin that it had no listener at some moment.", "quantifier": "every schedule with arbitrary interference", "why_tests_cant": "needs every interference point", "anchors": ["src/main/java/com/webotech/statemachine/strategy/TransitionTask.java: execute", "src/main/java/com/webotech/statemachine/GenericStateMachine.java: notifyStateMachineListener"]}
{"id": "C17", "title": "An exception never stops the machine and is reported exactly once", "statement": "If a callback throws an Exception while an event is processed, onExceptionDuringEventProcessing is called exactly once with that event, machine and exception; an exception in an exit action (or begin notification) leaves the current state unchanged, one in an entry action (or end notification) leaves the new state in place; the remaining callbacks of that event are skipped and later events are still processed.", "quantifier": "every schedule, every user callback, every throw point", "why_tests_cant": "all failure points times all histories", "anchors": ["src/main/java/com/webotech/statemachine/strategy/DefaultEventStrategy.java: lines 92-101", "src/main/java/com/webotech/statemachine/strategy/TransitionTask.java: execute"]}
{"id": "C18", "title": "Reaching a final state ends the machine", "statement": "When a transition into a state configured with a bare itEnds (or into a state never configured with when) completes without exception, the machine is ended and getCurrentState() is _END_; if an entry action or the end notification of such a state throws, the machine is NOT ended and stays in that state.", "quantifier": "every configuration, history and schedule", "why_tests_cant": "all configurations and failure points", "anchors": ["src/main/java/com/webotech/statemachine/strategy/TransitionTask.java: execute lines 44-47", "src/main/java/com/webotech/statemachine/GenericStateMachine.java: itEnds"]}
{"id": "C19", "title": "An initial state configured to end does not end the machine", "statement": "Expectation (itEnds javadoc): a machine in a state configured with itEnds() has ended. Actual, proved: starting in such a state (by start() or startInState()) leaves the machine un-ended; only firing an event named _immediate_, which fire() does not reject, ends it.", "quantifier": "witness execution; plus every configuration with a bare itEnds on the start state", "why_tests_cant": "the claim is about the absence of an effect in all continuations", "anchors": ["src/main/java/com/webotech/statemachine/GenericStateMachine.java: itEnds, start, startInState, fire"]}
{"id": "C20", "title": "Once ended, always ended (after start() has returned)", "statement": "After a start()/startInState() call has returned normally, isEnded() once true stays true forever, over every schedule; before start() returns this fails (see C23).", "quantifier": "every schedule, every user callback", "why_tests_cant": "permanence over all continuations", "anchors": ["src/main/java/com/webotech/statemachine/GenericStateMachine.java: updateCurrentState, start line 237, isEnded"]}
{"id": "C21", "title": "Nothing happens to events taken after the end", "statement": "Once the machine has ended (and start() has returned), any event taken from its queue afterwards is discarded: no listener notification, no action, no unmapped handler call and no state change is caused by it; and fire() no longer queues events.", "quantifier": "every schedule, every user callback", "why_tests_cant": "all later events in all continuations", "anchors": ["src/main/java/com/webotech/statemachine/strategy/DefaultEventStrategy.java: line 93", "src/main/java/com/webotech/statemachine/GenericStateMachine.java: fire"]}
{"id": "C22", "title": "stop() racing a transition can leave an ended machine in an ordinary state", "statement": "Expectation: isEnded() implies getCurrentState() is _END_. Actual, proved: a stop() between the two halves of a transition's state update leaves isEnded() true with getCurrentState() an ordinary state, permanently; and without such a race (stop on an idle machine, or the automaton ending by itself) ended implies _END_.", "quantifier": "witness schedule; positive part for every schedule without stop()", "why_tests_cant": "a two-instruction race window no test reliably hits", "anchors": ["src/main/java/com/webotech/statemachine/GenericStateMachine.java: updateCurrentState lines 318-322, stop"]}
{"id": "C23", "title": "start() can resurrect an ended machine", "statement": "Expectation: a machine that ends or is stopped during start() (e.g. the README quick start, whose initial entry action fires the event that ends it) is ended. Actual, proved: the final isEnded.set(false) of start() overwrites it, after which isEnded() is false although getCurrentState() is _END_, and no event ever changes that.", "quantifier": "witness schedules (README quick start; stop() inside an entry action)", "why_tests_cant": "a race between the starting thread and the worker thread", "anchors": ["src/main/java/com/webotech/statemachine/GenericStateMachine.java: start line 237", "README.md: Quick start example"]}
{"id": "C24", "title": "Pooled pair objects are never shared", "statement": "At every moment of every execution each pooled event/machine pair object is in at most one place: one pool, one queue position, or the hands of exactly one thread; nobody writes a pair while it is queued.", "quantifier": "every schedule, any number of firing threads and workers", "why_tests_cant": "ownership over all interleavings", "anchors": ["src/main/java/com/webotech/statemachine/strategy/EventMachinePairPool.java: take, give", "src/main/java/com/webotech/statemachine/strategy/DefaultEventStrategy.java: lines 78-101"]}
{"id": "C25", "title": "Payload snapshot", "statement": "If an event carries a payload when fired, the event object delivered to callbacks is a distinct copy with the same name and that payload, and setting another payload on the fired object afterwards does not affect it; an event fired without payload is delivered as the same object, so a payload set before processing IS seen.", "quantifier": "every schedule, every payload, every later mutation", "why_tests_cant": "all interleavings of setPayload with processing", "anchors": ["src/main/java/com/webotech/statemachine/strategy/DefaultEventStrategy.java: lines 79-85", "src/main/java/com/webotech/statemachine/NamedStateEvent.java: copy constructor"]}
{"id": "C26", "title": "Bounded queue", "statement": "With maxQueueSize n > 0 the queue never holds more than n - 1 + k events when k threads fire concurrently - so never more than n with a single firing thread - and an event is dropped only by reporting IllegalStateException to onExceptionDuringEventProcessing on the firing thread; the bound n itself fails with two concurrent firing threads. The events are counted while others add and take events, so an event can be refused although the queue never held n events.", "quantifier": "every schedule, every n, every number of firing threads", "why_tests_cant": "the bound is about all interleavings of check and insert", "anchors": ["src/main/java/com/webotech/statemachine/strategy/DefaultEventStrategy.java: lines 71-77"]}
{"id": "C27", "title": "Drop-duplicates", "statement": "With the drop-duplicate strategy, the queue never holds more than k events of the same name when k threads fire concurrently - so no duplicates with a single firing thread; a dropped event causes no callback; equality ignores the payload. With two concurrent firing threads duplicates are possible.", "quantifier": "every schedule, every number of firing threads", "why_tests_cant": "interleavings of the duplicate check with the insert", "anchors": ["src/main/java/com/webotech/statemachine/strategy/DropDuplicateEventStrategy.java: processEvent"]}
{"id": "C28", "title": "Default-built machines share one event queue and are not isolated", "statement": "Expectation: independently built machines do not affect each other. Actual, proved: all machines (and drop-duplicate strategies) built with the default configuration share one queue and one executor; there is an execution in which an event fired on one default machine is processed against another machine's transition table and lost with a NullPointerException, and one where it is silently discarded because the other machine has ended.", "quantifier": "every sequence of default builds (sharing); witness executions (interference)", "why_tests_cant": "depends on which task drains the shared queue first", "anchors": ["src/main/java/com/webotech/statemachine/strategy/EventProcessingStrategyFactory.java: basicConfig, getEventQueue, getExecutor", "src/main/java/com/webotech/statemachine/strategy/DefaultEventStrategy.java: lines 87-95", "src/main/java/com/webotech/statemachine/GenericStateMachine.java: Builder.build"]}
{"id": "C29", "title": "Machines built from separate Config objects are isolated", "statement": "Strategies created from distinct Config objects without explicit queue/executor never share a queue, executor or pool with any other; and events fired on a machine with its own queue are only ever processed for that machine with that machine's table.", "quantifier": "every sequence of factory/builder calls; every schedule", "why_tests_cant": "all build sequences and all schedules", "anchors": ["src/main/java/com/webotech/statemachine/strategy/EventProcessingStrategyFactory.java: Config, newDefaultStrategy"]}
{"id": "C30", "title": "Multi-consumer listener", "statement": "add returns true iff the listener was not registered, remove returns true iff it was. A notification is delivered to consumers one after the other with unchanged arguments: only to consumers registered at some moment of the notification, to none more often than it was registered (at its beginning, or anew meanwhile), and, if no consumer throws, to every consumer registered throughout; so without interference exactly once to each registered consumer. But a throwing consumer stops delivery to the remaining ones and propagates (contrary to 'independently of each other'); consumers that were never registered at the same time may get the same notification, and a consumer may be called after it was removed.", "quantifier": "every schedule of add, remove and notifications, every set of listeners, every order of iteration", "why_tests_cant": "iteration is weakly consistent: the outcome depends on bin order and on the timing of concurrent add and remove calls", "anchors": ["src/main/java/com/webotech/statemachine/MultiConsumerStateMachineListener.java: add, remove, onStateChangeBegin, onStateChangeEnd"]}
{"id": "C31", "title": "HandleExceptionAction", "statement": "The wrapped action is executed exactly once; the handler is called exactly once with the event, machine and exception iff the action throws an Exception; nothing is propagated unless the handler throws or the action throws an Error, which bypasses the handler.", "quantifier": "every wrapped action and handler behaviour, nested wrapping", "why_tests_cant": "all behaviours of user code", "anchors": ["src/main/java/com/webotech/statemachine/HandleExceptionAction.java: execute"]}
{"id": "C32", "title": "Thread names are unique", "statement": "The first 2^31 threads created by any mix of thread factories have pairwise distinct names, each of the form prefix-number; thread names can collide only after the counter wraps.", "quantifier": "every sequence of thread creations, every prefix string", "why_tests_cant": "all prefixes and up to 2^31 threads", "anchors": ["src/main/java/com/webotech/statemachine/util/Threads.java: NamedDaemonThreadFactory.newThread"]}
{"id": "C33", "title": "Logging listener lines determine the transition", "statement": "The logging listener writes exactly one line per notification, in the documented format, and distinct target names give distinct lines; an empty or null listener name gives the unnamed format.", "quantifier": "every name, state and event", "why_tests_cant": "all strings", "anchors": ["src/main/java/com/webotech/statemachine/LoggingStateMachineListener.java: logChange"]}
{"id": "C34", "title": "The lifecycle table", "statement": "configureAppStateMachine accepts a fresh machine and yields exactly the documented transition table - nine entries, no others; the initial state is UNINITIALISED.", "quantifier": "every (state name, event name) pair", "why_tests_cant": "absence of further entries ranges over all names", "anchors": ["src/main/java/com/webotech/statemachine/service/LifecycleStateMachineUtil.java: configureAppStateMachine"]}
{"id": "C35", "title": "Subsystems start in order and stop in reverse", "statement": "Each time the STARTING action runs, the subsystems that getSubsystems() returns at a moment of it are started in list order, up to and including the first that throws; complete is fired iff all started, otherwise error is fired. Each time STOPPING runs, the subsystems that getSubsystems() returns at a moment of it are stopped in exactly reverse order up to the first that throws, then complete, else error.", "quantifier": "every list of subsystems, every failing position, every interference", "why_tests_cant": "all list lengths and failure points", "anchors": ["src/main/java/com/webotech/statemachine/service/AbstractAppService.java: configureAppStateMachine lines 76-96"]}
{"id": "C36", "title": "App start/stop are permitted only in the documented states", "statement": "stop() fires a stop event iff the app is STARTED, or STOPPED in restartable mode; does nothing when STOPPED in exit mode; otherwise throws IllegalStateException. A second start() fires start iff restartable and STOPPED, otherwise throws. error() logs one line and fires the error event.", "quantifier": "every machine state, both modes", "why_tests_cant": "all states including _END_ and not-started", "anchors": ["src/main/java/com/webotech/statemachine/service/AbstractAppService.java: start, stop"]}
{"id": "C37", "title": "The blocking start() call returns only in exit mode", "statement": "In exit mode, start() returns only after the app's STOPPED entry action ran (or the thread was interrupted). In restartable mode the latch is never released: the first start() never returns by itself, even after the machine has ended - contrary to the documentation that a stop event in the stopped state lets the process exit.", "quantifier": "every schedule, every user behaviour", "why_tests_cant": "never-returns is a claim over all infinite continuations", "anchors": ["src/main/java/com/webotech/statemachine/service/AbstractAppService.java: start lines 123-135, stopped action lines 97-103"]}
{"id": "C38", "title": "A normal exit can make start() throw", "statement": "Expectation: on an orderly shutdown in exit mode start() returns normally. Actual, proved: there is a schedule in which start() throws IllegalStateException ('Cannot stop the app when it's in [_END_] state').", "quantifier": "witness schedule", "why_tests_cant": "race between the main thread and the machine thread", "anchors": ["src/main/java/com/webotech/statemachine/service/AbstractAppService.java: start lines 131-135, stop"]}
{"id": "C39", "title": "getEventQueueSize under-counts", "statement": "getEventQueueSize() counts every event that waited in the queue during the whole call and no event that did not wait at some moment of it; if nobody adds or takes an event meanwhile it is exactly the number of events accepted and not yet taken for processing. It need not be the number of events at any one moment. Contrary to its javadoc ('haven't completed processing') it does not count the event being processed: there is an execution where it is 0 while an entry action is still running.", "quantifier": "every schedule; witness", "why_tests_cant": "exact count at all moments of all executions", "anchors": ["src/main/java/com/webotech/statemachine/GenericStateMachine.java: getEventQueueSize", "src/main/java/com/webotech/statemachine/strategy/DefaultEventStrategy.java: getEventQueueSize", "src/main/java/com/webotech/statemachine/api/StateMachine.java: getEventQueueSize"]}
{"id": "C40", "title": "States and events are identified by name", "statement": "equals on states/events of the library is an equivalence given by the name, equal objects have equal hash codes, and an event behaves like any other event object of the same name with respect to the table; after a transition the current state is the object given to itTransitionsTo (its own actions run), not the object given to when().", "quantifier": "every pair of objects, every table", "why_tests_cant": "all names/objects", "anchors": ["src/main/java/com/webotech/statemachine/NamedState.java: equals, hashCode", "src/main/java/com/webotech/statemachine/NamedStateEvent.java: equals, hashCode"]}
{"id": "C41", "title": "A multi-threaded executor breaks sequential processing", "statement": "With a user-supplied executor of two threads there is an execution in which the callbacks of two events interleave, and one in which a worker dies with a NullPointerException on an empty queue; still no event is lost or taken twice (C09, C10).", "quantifier": "witness schedules", "why_tests_cant": "race windows", "anchors": ["src/main/java/com/webotech/statemachine/strategy/DefaultEventStrategy.java: lines 88-90", "src/main/java/com/webotech/statemachine/strategy/EventProcessingStrategyFactory.java: withExecutor"]}
{"id": "C42", "title": "Firing into a shut-down executor", "statement": "If the executor rejects the task, fire() throws RejectedExecutionException to the caller yet the event stays in the queue; it is never silently processed by fire itself.", "quantifier": "every machine state with a shut-down executor", "why_tests_cant": "all states", "anchors": ["src/main/java/com/webotech/statemachine/strategy/DefaultEventStrategy.java: lines 86-87"]}
{"id": "C43", "title": "start() notification sequence", "statement": "A successful start() makes, in order: begin notification (_UNINITIALISED_, _immediate_, initial), the entry actions of the initial state in append order with the immediate event, end notification with the same arguments; truncated at the first exception, which propagates to the caller. startInState makes no callback at all.", "quantifier": "every configuration, listener, action list and interference", "why_tests_cant": "all action lists and failure points", "anchors": ["src/main/java/com/webotech/statemachine/GenericStateMachine.java: start lines 232-238, startInState"]}
{"id": "C44", "title": "Start-up is not atomic with the first event", "statement": "Expectation: transitions are atomic, the next event is processed once the transition is complete. Actual, proved: there is an execution in which the worker runs a complete transition out of the initial state while start() is still between its entry actions and its end notification.", "quantifier": "witness schedule", "why_tests_cant": "race", "anchors": ["src/main/java/com/webotech/statemachine/GenericStateMachine.java: start lines 232-238", "docs/05-events.md"]}
{"id": "C45", "title": "Appending an action while the action list runs", "statement": "If, while a state's entry (exit) actions run, an action is appended to that same list, the actions after the appending one are not run and a ConcurrentModificationException is raised; otherwise all actions run exactly once in append order.", "quantifier": "every action list, every position", "why_tests_cant": "all lists and positions", "anchors": ["src/main/java/com/webotech/statemachine/NamedState.java: onEntry, onExit, appendEntryActions, appendExitActions"]}
{"id": "C46", "title": "Library threads are daemons with the given handler", "statement": "Every thread made by a library thread factory is a daemon thread and carries exactly the uncaught-exception handler given to its factory (none if none was given), whatever the inherited daemon flag, the prefix and the interleaving of creators.", "quantifier": "every sequence of creations by any number of threads, unbounded", "why_tests_cant": "all interleavings and inherited flags", "anchors": ["src/main/java/com/webotech/statemachine/util/Threads.java: NamedDaemonThreadFactory.newThread, newNamedDaemonThreadFactory"]}
{"id": "C47", "title": "A Builder or strategy used for two machines redirects the first one", "statement": "All machines built with one strategy object use the transition table of the machine built last with it; in particular a Builder remembers the default strategy, so building twice from one Builder makes the first machine react according to the second machine's configuration. Expectation 'every machine works with its own configuration' is refuted by an execution.", "quantifier": "every sequence and interleaving of factory/builder calls; witness run", "why_tests_cant": "all build sequences", "anchors": ["src/main/java/com/webotech/statemachine/GenericStateMachine.java: Builder.build, constructor", "src/main/java/com/webotech/statemachine/strategy/DefaultEventStrategy.java: setStates"]}
{"id": "C48", "title": "A strategy is what its Config was told, and a snapshot of it", "statement": "Nothing done after a strategy was created, on its Config or otherwise, changes its queue, executor, handler, unexpected flow listener, queue limit or pool. A thread that keeps a Config, the variable and the Builder to itself gets, whatever other threads do, a strategy of the kind it asked for (plain or drop duplicate) with the queue limit and objects it last gave; objects not given are made by the factory at the first creation that finds them missing and shared by later strategies of the Config; the machine it builds runs with that strategy.", "quantifier": "every interleaving of builder threads", "why_tests_cant": "all continuations", "anchors": ["src/main/java/com/webotech/statemachine/strategy/EventProcessingStrategyFactory.java: newDefaultStrategy, Config", "src/main/java/com/webotech/statemachine/strategy/DefaultEventStrategy.java: constructor"]}
{"id": "C49", "title": "Thread name prefix of library executors", "statement": "An executor made by the factory names its threads with the prefix given by withThreadName on the same Config, or with state-machine; the prefix of one Config never appears on the executor of another or of the default configuration. A name given after the first strategy was created from the Config has no effect on the executor, which is kept.", "quantifier": "every interleaving of builder threads", "why_tests_cant": "all call orders", "anchors": ["src/main/java/com/webotech/statemachine/strategy/EventProcessingStrategyFactory.java: Config.getExecutor, withThreadName"]}
{"id": "C50", "title": "Nothing blocks but start() of an app service, and what is begun is finished", "statement": "A thread that cannot make a step is inside no API call, callback or event processing, unless it waits in start() of an app service that may not terminate yet: the library never deadlocks. In every endless execution in which a thread is scheduled again and again, its callbacks do not nest without end and the app services it starts may terminate some time, every API call, callback and processing of an event it begins is completed, and client programs come to their end, whatever other threads do.", "quantifier": "every fair infinite schedule, every user code", "why_tests_cant": "liveness over infinite schedules", "anchors": ["src/main/java/com/webotech/statemachine/GenericStateMachine.java: fire, start, stop", "src/main/java/com/webotech/statemachine/strategy/DefaultEventStrategy.java: processEvent", "src/main/java/com/webotech/statemachine/strategy/TransitionTask.java: execute", "src/main/java/com/webotech/statemachine/service/AbstractAppService.java: start"]}
{"id": "C51", "title": "Every accepted event is eventually processed", "statement": "If the executors of the machines using a queue serve no other queue, have at least one thread, are never shut down and their threads are scheduled again and again without being caught in callbacks for ever, then every event accepted into the queue is eventually taken out of it in its turn by one of these threads and its processing ends, even if callbacks throw exceptions or Errors that kill drain tasks.", "quantifier": "every fair infinite schedule, every user code, any number of clients and workers", "why_tests_cant": "liveness over infinite schedules", "anchors": ["src/main/java/com/webotech/statemachine/strategy/DefaultEventStrategy.java: processEvent", "src/main/java/com/webotech/statemachine/strategy/TransitionTask.java: execute", "src/main/java/com/webotech/statemachine/GenericStateMachine.java: fire"]}
{"id": "C52", "title": "An app service that is started comes up", "statement": "If nobody but the app service deals with its machine (no listener, subsystem or interrupt fails it, error() and withSubsystems() are not called, stop() is called at most once and, for a restartable app, start() too), and the threads involved are scheduled again and again, then after a call of start() there is a moment at which the app is in STARTED, not ended, and every subsystem has been started exactly once, in the order of the context, and none stopped; it stays so as long as nobody calls stop().", "quantifier": "every fair infinite schedule, any number of threads calling start(), any other activity of other machines", "why_tests_cant": "liveness over infinite schedules", "anchors": ["src/main/java/com/webotech/statemachine/service/AbstractAppService.java: start, configureAppStateMachine", "src/main/java/com/webotech/statemachine/service/LifecycleStateMachineUtil.java: configureAppStateMachine"]}
{"id": "C53", "title": "An app service that is stopped goes down", "statement": "Under the same conditions, once a call of stop() has returned normally, from some moment on: every subsystem has been started once in order and then stopped once in reverse order, the machine of an exit-on-stop app has ended, the machine of a restartable app is in STOPPED and not ended. Every call of start() of an exit-on-stop app then comes to its end, and start() never returns normally before all subsystems have been stopped.", "quantifier": "every fair infinite schedule, any number of threads", "why_tests_cant": "liveness over infinite schedules", "anchors": ["src/main/java/com/webotech/statemachine/service/AbstractAppService.java: start, stop, configureAppStateMachine", "src/main/java/com/webotech/statemachine/service/LifecycleStateMachineUtil.java: configureAppStateMachine"]}
{"id": "C54", "title": "Every accepted event takes effect and the machine settles in the state its table gives", "statement": "A machine with a queue of its own and one thread, from a moment on at which it rests and after which nobody but its thread interferes (no start, stop, configuration change): every event accepted is eventually processed, in the order of acceptance, each by the transition its configuration gives for the state the previous events led to, with the listener calls and actions of that transition; once no more events are accepted, the machine settles for ever in the state that the run of the table over all accepted events ends in, with no event waiting. Callbacks may throw exceptions and Errors.", "quantifier": "every fair infinite schedule, any number of firing clients, every callback behaviour", "why_tests_cant": "liveness over infinite schedules combined with all event sequences", "anchors": ["src/main/java/com/webotech/statemachine/GenericStateMachine.java: fire", "src/main/java/com/webotech/statemachine/strategy/DefaultEventStrategy.java: processEvent", "src/main/java/com/webotech/statemachine/strategy/TransitionTask.java: execute"]}
{"id": "C55", "title": "An app service gets a machine of its own", "statement": "However many threads construct app services, strategies and machines at the same time: the machine an app service's constructor makes has an event queue and an executor that no other machine uses, an executor of exactly one thread whose name prefix is the context's app thread name (default app, state-machine if null was given), no queue limit, no dropping of duplicates, the default handlers, and its own transition table; no other machine is ever built from its Config.", "quantifier": "every interleaving of builder threads, every sequence of builder calls", "why_tests_cant": "all interleavings of constructors", "anchors": ["src/main/java/com/webotech/statemachine/service/AbstractAppService.java: constructor", "src/main/java/com/webotech/statemachine/service/AbstractAppContext.java: withAppThreadName, getAppThreadName", "src/main/java/com/webotech/statemachine/strategy/EventProcessingStrategyFactory.java: createDefaultStrategy, Config"]}
{"id": "C56", "title": "Accessors tell the truth, mutators take effect, nothing else changes what they show", "statement": "isStarted(), isEnded(), getCurrentState(), getPayload() and getSubsystems() of an app context return what is so at a moment of their call and change nothing. setStateMachineListener(), appendEntryActions(), appendExitActions(), setPayload() and withSubsystems() set exactly what they are told to (null actions left out) at one moment of their call, and return normally. The started flag, ended flag, current state and listener of a machine, the actions of a state, the payload of an event and the subsystems of a context change only inside such a mutator of that object, inside start()/startInState()/stop() of that machine, or inside the processing of an event of that machine.", "quantifier": "every schedule, any number of threads, every user code", "why_tests_cant": "frame conditions over all interleavings", "anchors": ["src/main/java/com/webotech/statemachine/GenericStateMachine.java: isStarted, isEnded, getCurrentState, setStateMachineListener", "src/main/java/com/webotech/statemachine/NamedState.java: appendEntryActions, appendExitActions", "src/main/java/com/webotech/statemachine/NamedStateEvent.java: getPayload, setPayload", "src/main/java/com/webotech/statemachine/service/AbstractAppContext.java: getSubsystems, withSubsystems"]}
{"id": "C57", "title": "The default unexpected flow listener logs one line and nothing else", "statement": "With DefaultUnexpectedFlowListener, an exception during event processing, an event after the end and an event before the start of a machine each lead to exactly one log line, which names the event and, for an exception, the state the machine is in at a moment of the call; the listener never throws, calls no API and no callback.", "quantifier": "every schedule, any number of threads, every user code", "why_tests_cant": "absence of effects over all executions", "anchors": ["src/main/java/com/webotech/statemachine/strategy/DefaultUnexpectedFlowListener.java"]}
{"id": "C58", "title": "What the start() that starts an app service does, and interruption", "statement": "The call of start() that starts the machine of an app service brings the machine up in its initial state, fires the start event, and then waits until the app has stopped for good (exit mode) or its thread is interrupted; only an interrupt() call for that thread makes it log that it was interrupted, and the thread is interrupted again afterwards (the flag is not swallowed). In both cases a machine that has not ended by then is stopped as by stop(), and start() returns or throws what that did: a restartable app in STARTED whose start() is interrupted is stopped; in STARTING the call throws IllegalStateException. An exception of one step ends the call with that exception.", "quantifier": "every schedule, any number of threads, every user code, every moment of interruption", "why_tests_cant": "all moments at which an interrupt can hit", "anchors": ["src/main/java/com/webotech/statemachine/service/AbstractAppService.java: start, stop"]}
{"id": "C59", "title": "A stopped app service may leave subsystems running", "statement": "One would expect: when start() of an exit-on-stop app has returned, or the app is in STOPPED, no subsystem runs; a subsystem is started only when it does not run; in STARTED all subsystems run; a restartable app that is stopped only while STARTED can always be started again. All five fail, with start(), stop() and error() the only calls made: a subsystem started before another one failed is never stopped; error() takes a STARTED app to STOPPED without stopping anything, and the next start() starts the running subsystems again; the complete event of one start can complete a later start that failed; two simultaneous stop() calls end a restartable app.", "quantifier": "refuted: concrete executions of constructed app services under proper use", "why_tests_cant": "the claim is universal over executions; the counterexamples need particular interleavings", "anchors": ["src/main/java/com/webotech/statemachine/service/AbstractAppService.java: start, stop, error, configureAppStateMachine", "src/main/java/com/webotech/statemachine/service/LifecycleStateMachineUtil.java: configureAppStateMachine"]}
{"id": "C60", "title": "An app service one of whose subsystems fails settles, and start() returns", "statement": "Under fair schedules, for an app service used as in C52/C53: if one subsystem never starts without an exception, then after start() the machine settles in STOPPED (restartable) or ends (exit mode) without anybody calling stop(); the subsystems were started in order up to the one that threw, nothing else was done to them, in particular those already started are never stopped; in exit mode every start() comes to its end, and returns only after that exception. If all subsystems start but one never stops without an exception, the app comes up as usual, and after stop() it settles in STOPPED or ends all the same; the subsystems were stopped in reverse order up to the one that threw, the remaining ones never; in exit mode every start() comes to its end.", "quantifier": "every fair schedule, any number of threads and subsystems, every user code; whichever subsystem throws whichever Exception, at the first or any attempt", "why_tests_cant": "liveness over infinite schedules", "anchors": ["src/main/java/com/webotech/statemachine/service/AbstractAppService.java: start, stop, configureAppStateMachine", "src/main/java/com/webotech/statemachine/service/LifecycleStateMachineUtil.java: configureAppStateMachine", "src/main/java/com/webotech/statemachine/HandleExceptionAction.java"]}
{"id": "C61", "title": "A restartable app service can be started and stopped again and again", "statement": "Under fair schedules, for a restartable app service whose subsystems do not fail, with start() and stop() called in turn, each once the state the call before leads to has been reached: every call but the first start() returns, and normally; after the n-th stop() the machine settles in STOPPED, not ended, and what was ever done to the subsystems is exactly n rounds of all started in order, all stopped in reverse order; after a later start() it settles in STARTED, the rounds so far followed by all started in order. The first start() never returns: stop() does not release the thread that waits in it.", "quantifier": "every fair schedule, any number of calls, threads and subsystems, every user code", "why_tests_cant": "any number of restarts, liveness over infinite schedules", "anchors": ["src/main/java/com/webotech/statemachine/service/AbstractAppService.java: start, stop, configureAppStateMachine", "src/main/java/com/webotech/statemachine/service/LifecycleStateMachineUtil.java: configureAppStateMachine"]}
{"id": "C62", "title": "The objects that carry events between threads are not raced", "statement": "Two accesses of the same pooled event/machine pair, each of them a write or the read by the thread that has taken the pair from its queue, are always ordered by Java's happens-before relation, whoever makes them; when no machine drops duplicates these are all accesses, so pooling and reusing the objects is free of data races. It is refuted for a strategy that drops duplicates: its fire() looks into pairs that another thread may be filling at that time for another event, and not even the most generous reading of the synchronization edges orders the two.", "quantifier": "every schedule, any number of threads, machines, pools and queues, every user code", "why_tests_cant": "a data race shows only on some hardware and some runs; the property is about an order, not about values", "anchors": ["src/main/java/com/webotech/statemachine/strategy/EventMachinePairPool.java", "src/main/java/com/webotech/statemachine/strategy/EventMachinePair.java", "src/main/java/com/webotech/statemachine/strategy/DefaultEventStrategy.java: processEvent", "src/main/java/com/webotech/statemachine/strategy/DropDuplicateEventStrategy.java: processEvent", "src/main/java/com/webotech/statemachine/strategy/TransitionTask.java: execute"]}
{"id": "C63", "title": "What a thread did before firing an event is visible while the event is processed", "statement": "Whatever the firing thread did up to the moment its event was queued happens-before whatever the processing thread does from the moment it takes that event, so payloads and user data need no synchronization of their own; the pair taken holds the event of exactly that fire(). Likewise, whatever the thread that called start() did until the machine was set going (configuring it, say) happens-before the processing of every event fired after that, whoever fired it.", "quantifier": "every schedule, any number of threads, every user code", "why_tests_cant": "visibility is a property of the happens-before order of all executions, no test can observe it", "anchors": ["src/main/java/com/webotech/statemachine/GenericStateMachine.java: start, startInState, fire", "src/main/java/com/webotech/statemachine/strategy/DefaultEventStrategy.java: processEvent", "src/main/java/com/webotech/statemachine/strategy/TransitionTask.java: execute"]}
{"id": "C64", "title": "The fields of a machine are not raced when it is used from its own thread; otherwise they are", "statement": "All accesses of the plain fields of a machine (current state, listener, configured transitions, initial and final states) are ordered by happens-before, if: the machine has a queue, a table and an executor of one thread of its own; events are fired after start() set the machine going, by any thread; every other call on it except isStarted(), isEnded() and getEventQueueSize() is made either by the starting thread before the machine was set going or from code that processes its events (actions, listeners, handlers); and its queue is unbounded or its flow listener is not the default one. More generally this holds of any data that is accessed only in these two ways. Conditions that cannot be dropped, each refuted by a concrete execution: getCurrentState() called from another thread; stop() of an app service, which reads the state in the caller's thread; an event fired while start() is still running; an executor of two threads; a fire() refused on a full queue with the default flow listener, which reads the current state in the firing thread.", "quantifier": "every schedule, any number of threads, every user code; refutations by concrete executions", "why_tests_cant": "a data race shows only on some hardware and some runs", "anchors": ["src/main/java/com/webotech/statemachine/GenericStateMachine.java: getCurrentState, start, startInState, updateCurrentState, setStateMachineListener, currentState", "src/main/java/com/webotech/statemachine/strategy/DefaultEventStrategy.java: processEvent", "src/main/java/com/webotech/statemachine/strategy/DefaultUnexpectedFlowListener.java: onExceptionDuringEventProcessing", "src/main/java/com/webotech/statemachine/service/AbstractAppService.java: stop, getLifecycleState"]}
{"id": "C65", "title": "When start() of an app service returns, the shutdown is visible to the caller", "statement": "If the call of start() that started an app service returns normally without having been interrupted, then the main latch was released, and whatever the releasing thread did before the first release (stopping the subsystems, say) happens-before whatever the caller does from the return of start() on. Under the conditions of C53, for an exit-on-stop app: everything that was ever done to its subsystems does.", "quantifier": "every schedule, any number of threads, every user code", "why_tests_cant": "visibility is a property of the happens-before order of all executions", "anchors": ["src/main/java/com/webotech/statemachine/service/AbstractAppService.java: start, configureAppStateMachine"]}
{"id": "C66", "title": "Which subsystems an app service starts and stops when they are replaced", "statement": "Whenever a subsystem is started (stopped), the STARTING (STOPPING) action of its app service is running, the subsystem is in the list getSubsystems() returned at one moment of this run of the action, and exactly those before it in the list (after it, when stopping) have been dealt with in this run, none of which threw. If withSubsystems() is not called from the start of the one action to the end of the other, STOPPING stops in reverse order what STARTING started. What a thread did before it called withSubsystems() happens-before the start and stop of subsystems in every action begun after the call returned. Expectations that fail, each refuted by a concrete execution, when the subsystems of a running app are replaced: that no subsystem runs any more in STOPPED (the old ones still do), and that only subsystems are stopped that were started (the new ones are stopped without).", "quantifier": "every schedule, any number of threads and replacements, every user code; refutations by a concrete execution", "why_tests_cant": "all moments at which the list may be replaced, unfinished actions, happens-before", "anchors": ["src/main/java/com/webotech/statemachine/service/AbstractAppContext.java: withSubsystems, getSubsystems, subsystemsRef", "src/main/java/com/webotech/statemachine/service/AbstractAppService.java: configureAppStateMachine"]}
{"id": "C67", "title": "error() of an app service brings it to STOPPED", "statement": "Provided the machine of the app service is used through start(), stop() and error() only (and its transitions' actions and Void events are left as they are) and no listener of it throws when told that a transition begins: once the app has left UNINITIALISED, each event its thread processes is one of the four lifecycle events and moves the app exactly along the documented table (start: STOPPED to STARTING; complete: STARTING to STARTED, STOPPING to STOPPED; stop: STARTED to STOPPING, STOPPED to the end; error: STARTING, STARTED, STOPPING to STOPPED; everything else ignored; an ended app stays ended), whatever subsystems throw. Hence, on a fair schedule, after every call of error() made from then on there is a moment without an event in processing at which the app is STOPPED or ended, whoever else calls start(), stop() and error() at the same time. If the app exits on stop, it is ended there, the latch start() waits for is released, and every call of start() (by a thread that goes on and starts no other app) returns. Both conditions are needed, by concrete executions: an error() between the start of the machine and the leaving of UNINITIALISED is ignored and the app runs; a listener that throws at the beginning of the transition keeps the app in STARTED.", "quantifier": "every schedule and every user code (first part), every fair schedule of any number of threads (second part); refutations by concrete executions", "why_tests_cant": "liveness over infinite schedules, all interleavings of error() with start(), stop() and failing subsystems", "anchors": ["src/main/java/com/webotech/statemachine/service/AbstractAppService.java: error, start, stop, configureAppStateMachine", "src/main/java/com/webotech/statemachine/service/LifecycleStateMachineUtil.java: configureAppStateMachine"]}
{"id": "C68", "title": "Pair objects are reused: no more are made than were needed at one moment", "statement": "Events travel through a queue in pooled objects. When a queue and a pool are used together only (a strategy that uses one uses the other): (a) the number of different objects that ever carried an event into the queue is at most the number of events waiting at some one moment of the past plus the objects the threads active by then can have in their hands (one for a caller of fire, two for a worker thread); (b) with a maximum queue size the number is bounded outright by maximum - 1 + number of threads that feed the queue + what threads can have in their hands, however many events are fired; (c) no object is lost: it waits in the queue, a thread has it in its hands, or it is in the pool for reuse, also after exceptions of handlers, listeners and actions. For machines built without an event strategy, which share one queue but have a pool each, (a) is false by a concrete execution: one machine's objects end in the other machine's pool and never return, so that objects pile up with the number of events although never more than one event waits. Contrary to its documentation, giving an object back does not reset it: an object in the pool refers to an event and a machine until it is used again.", "quantifier": "every environment, schedule and user code; refutation by a concrete execution", "why_tests_cant": "a bound over executions of any length and all interleavings; a leak shows in a test only as growth over time", "anchors": ["src/main/java/com/webotech/statemachine/strategy/EventMachinePairPool.java: take, give", "src/main/java/com/webotech/statemachine/strategy/DefaultEventStrategy.java: processEvent", "src/main/java/com/webotech/statemachine/strategy/DropDuplicateEventStrategy.java: processEvent", "src/main/java/com/webotech/statemachine/GenericStateMachine.java: Builder.build"]}
{"id": "C69", "title": "A queue with a capacity loses events silently, unless it is large enough", "statement": "withEventQueue() accepts any thread-safe queue, also one whose offer() returns false when it is full. (a) As long as nothing is refused, every execution is one of the machine with the default queue, so that all other properties hold. (b) Nothing is refused if every such queue has room for max - 1 + n events, where max is the maximum queue size of its machines and n the number of threads that fire; room for max events is not enough, by a concrete execution. (c) Whatever is refused and when, the events accepted are taken in the order accepted, each once. (d) An object that carried a refused event is never used again. (e) Contrary to what one expects from fire() (an event fired on a running machine is queued, or its loss is reported), a refused event is lost without any callback, exception or result, by a concrete execution: the result of offer() is ignored.", "quantifier": "every queue that refuses by any rule, every environment, schedule and user code; refutations by concrete executions", "why_tests_cant": "which interleavings fill the queue depends on the schedule; absence of loss is a claim about all of them", "anchors": ["src/main/java/com/webotech/statemachine/strategy/DefaultEventStrategy.java: processEvent (line 86)", "src/main/java/com/webotech/statemachine/strategy/EventProcessingStrategyFactory.java: Config.withEventQueue, Config.getEventQueue", "src/main/java/com/webotech/statemachine/strategy/EventMachinePairPool.java: give"]}
{"id": "C70", "title": "The same events, the same behaviour", "statement": "A machine with its own queue and a single executor thread is a function of its events. Take two executions, of the same program or of two programs that set the machine up alike (state names, table, unmapped event handler, unexpected flow listener), and in each a period in which nobody stops, starts or reconfigures it. If it begins in the same state with the same configuration, listener and actions, if events of the same names are processed (or: accepted, and nothing is left waiting), and if callbacks end alike (each callback throws or not depending only on what was shown before), then the callbacks made, their order and arguments other than the event object, the changes of state in between, the exceptions that end worker tasks and the final state are the same. Threads, schedules, other machines and payloads have no influence. With an executor of several threads this is false: two executions of one program take the same events in the same order, without exceptions, and end in different states.", "quantifier": "every pair of environments, schedules and executions; any number of events; any rule by which callbacks throw; refutation by two concrete executions", "why_tests_cant": "a statement about pairs of executions: a test sees one schedule at a time, and cannot show that no other one makes a difference", "anchors": ["src/main/java/com/webotech/statemachine/strategy/TransitionTask.java: execute", "src/main/java/com/webotech/statemachine/strategy/DefaultEventStrategy.java: processEvent", "src/main/java/com/webotech/statemachine/GenericStateMachine.java: updateCurrentState, fire"]}
{"id": "C71", "title": "Executors that reject tasks", "statement": "withExecutor accepts any ExecutorService, also one that rejects tasks when it is saturated. (a) As long as no task is rejected the machines behave as with the default executor. (b) Whatever is rejected and when, each accepted event is taken once and in the order accepted, or waits. (c) fire() whose task is rejected throws RejectedExecutionException on the caller and makes no callbacks, but its event stays in the queue. (d) When nothing runs or is pending for a queue any more, at most as many events are left in it as tasks for it were rejected since it was last empty; none if none was rejected. (e) If the machine has an executor of its own that rejects tasks only when others wait (a bounded task queue of at least one place), all accepted events are taken, including those whose fire() threw, unless a task was ended by an exception. An exception of a callback, also the rejection of an event it fires, is reported to the unexpected flow listener exactly once. (f) Contrary to what one expects, an event whose fire() threw can be processed later, and (g) with such an executor shared by two machines with queues of their own an accepted event can be stranded: nothing processes it until another event is fired; both by concrete executions.", "quantifier": "every rule by which executors reject, every environment, schedule and user code; refutations by concrete executions", "why_tests_cant": "when an executor is saturated depends on the schedule; that nothing is stranded is a claim about all of them", "anchors": ["src/main/java/com/webotech/statemachine/strategy/DefaultEventStrategy.java: processEvent (lines 86-87)", "src/main/java/com/webotech/statemachine/strategy/EventProcessingStrategyFactory.java: Config.withExecutor", "src/main/java/com/webotech/statemachine/strategy/TransitionTask.java: execute"]}
{"id": "C72", "title": "Executors with any order of tasks", "statement": "withExecutor accepts any ExecutorService, also one whose threads take the waiting tasks in another order than that of submission or delay them (priorities, work stealing, schedules): any order of tasks. (a) If no executor is shared by two machines, the order makes no difference at all: everything shown for the default executor applies; if threads take some task whenever one waits, each schedule leads to the same execution. (b) Also with shared executors each accepted event is taken once and in the order accepted, or waits; (c) when no task for a queue runs or waits and nobody is about to submit one, and its executors were not shut down, all its events were taken; (d) an exception of a callback is reported to the unexpected flow listener of the machine exactly once and does not end the task.", "quantifier": "every rule by which threads choose tasks, every environment, schedule and user code", "why_tests_cant": "the order depends on the executor and the schedule; the claims are about all of them", "anchors": ["src/main/java/com/webotech/statemachine/strategy/DefaultEventStrategy.java: processEvent (line 87)", "src/main/java/com/webotech/statemachine/strategy/EventProcessingStrategyFactory.java: Config.withExecutor", "src/main/java/com/webotech/statemachine/strategy/TransitionTask.java: execute"]}
{"id": "C73", "title": "Executors that drop tasks", "statement": "withExecutor accepts any ExecutorService, also one that drops tasks silently when it is saturated (DiscardPolicy, DiscardOldestPolicy); fire() returns normally then. (a) If no task is dropped, C72 applies. (b) Whatever is dropped, each accepted event is taken once and in the order accepted, or waits, and (c) an exception of a callback is reported to the unexpected flow listener exactly once. (d) If the executor serves only machines of one queue and drops a task only when another one waits, then, once no task for the queue runs or waits, nobody is about to submit one, the executor was not shut down and no task was ended by an exception, all accepted events were taken. (e) Expected but false: the same for an executor shared by machines with queues of their own; the event waits until another one is fired. (f) Whoever shares the executors and whatever they drop: once nothing runs or waits for a queue, nobody is about to submit a task for it and no executor was shut down, at most as many events wait as tasks for that queue were dropped since it was last empty.", "quantifier": "every rule by which tasks are dropped and chosen, every environment, schedule and user code", "why_tests_cant": "which tasks are dropped depends on the executor and the schedule; the claims are about all of them", "anchors": ["src/main/java/com/webotech/statemachine/strategy/DefaultEventStrategy.java: processEvent (line 87)", "src/main/java/com/webotech/statemachine/strategy/EventProcessingStrategyFactory.java: Config.withExecutor", "src/main/java/com/webotech/statemachine/strategy/TransitionTask.java: execute"]}
