# Formal model of paulmackinlay/state-machine in Coq 8.16

Paths of Java files are relative to `/repo/src/main/java/com/webotech/statemachine`; Coq files are
in `rocq/theories`.

## 1. Approach

**Code.** Every Java method is a *program* in a free monad (`prog`, `Prog.v`) over a first-order set
of instructions (`instr`, `Prog.v`).  An instruction is one atomic access to shared memory: one
AtomicBoolean operation, one field read or write, one queue operation.  `exec` (`Mem.v`) gives the
effect of one instruction.  The programs (`Machine.v`) are written to read like the source;
`try/catch/finally` are functions on programs.  The configuration methods are functions on a
configuration record (`Config.v`).

**User code.** Entry and exit actions, listeners, handlers, subsystems and client threads are
*arbitrary*: any program over the public API (`uprog`), chosen as a function of the callback object,
its arguments and the whole history so far (`behav`, `clients` of `env`).  Theorems quantify over all
of them.

**Executions.** A `world` is the shared memory, the client threads and the worker threads of the
executors (`Sched.v`).  `step E w t` lets thread `t` execute one instruction; an execution is any
schedule.  `reach E w0 w`: `w` is reached from the initial memory `w0` by some schedule.  `init_mem`
says what an initial memory is: machines configured by an arbitrary call sequence and not started,
empty queues, arbitrary listeners, actions and payloads.

**Trace.** API calls and returns, callbacks and their ends, log lines, events queued and taken, and
*every* memory access are recorded in the trace, in one step with the access.  The trace is ghost
state: only user behaviour may depend on it.  The specification files talk about the trace (and a few
memory fields), never about program text.

**Specification vocabulary** (all small, no proofs).
* `TreeSpec.v`: the brackets of one thread (an API call, a callback, the processing of one event) and
  the marks directly inside; `closed t tr k its o`: a completed bracket.
* `StateSpec.v`, `ConfSpec.v`, `OwnSpec.v`: the value of each field, the configuration, the
  names, the queue contents, all replayed from the trace.
* `ConfigSpec.v`: the fluent protocol and the table of last accepted clauses.
* `FlowSpec.v`, `ExactSpec.v`: the script of one event under interference, and the automaton run
  without (`calm`).
  `calm` rules out calls that touch the machine while the event is processed; a `start()` that has set
  the machine going (`start_over`) and merely has not returned yet is no interference.
* `LiveSpec.v`: endless executions (`moment`, `history` along a schedule `nat -> tid`), fairness.
  `AppLiveSpec.v`: an app service as its constructor leaves it, nobody else dealing with its machine.
* `ExnSpec.v`, `ApiSpec.v`, `CallSpec.v`, `RaceSpec.v`, `BoundSpec.v`, `ReachSpec.v`, `BuildSpec.v`: the rest.

**Proof.**
* `Logic.v`: rely/guarantee logic.  A weakest precondition `wp` over per-thread ghost state with a
  soundness theorem: instructions preserve the invariant ⇒ it holds in every reachable world.
* `Own.v`, `Hands.v`: ownership of pooled pair objects (C09, C24).
* `Lang.v`, `Tree.v`: for each method a language of (outcome, marks); every completed bracket of every
  execution is in the language of its method.
* `Truth.v`, `QTruth.v`, `ConfTruth.v`, `Copies.v`, `Moments.v`: memory agrees with the replay of the
  trace, so every value read in a bracket is the true value at a moment inside the bracket.
* `Nodes.v`, `Marks.v`, `Place.v`: which bracket a mark lies in.
* `FlowProofs*.v`, `ExactProofs.v`, `StartProofs.v`, `FireProofs.v`, `CallProofs.v`, `MultiProofs.v`, `EntryProofs.v`,
  `ReachProofs.v`, `StuckProofs.v`: the properties.
* `TokenProofs.v`, `OfferProofs.v`, `BoundProofs*.v`: counting arguments for C10, C26, C27.
* `Depth.v`: bounds the nesting of callbacks; `Live.v`: the program of a thread that is scheduled again and
  again comes to its end (any ghost state); `LiveProofs*.v`: C50, C51.
* `AppBuildProofs.v`: C55; spec in `AppBuildSpec.v`.
* `AccessProofs.v`: C56 and the calls of configuration, `error()` and the default unmapped handler; spec in `AccessSpec.v`.
* `FirstProofs.v`: C57, C58 (the interrupt flag agrees with the trace); spec in `FirstSpec.v`.
* `EffectProofs.v`: C54, the automaton run of C11 carried along C51; spec in `EffectSpec.v`.
* `AppLive1-11.v`: C52, C53, C60, C61, C65.  The processing of each lifecycle event while calm (1-3), which event is
  offered by whom and when (4, 5: one induction over the history), `start()` leads to the first event (6),
  the states and subsystem marks between events (7), the theorems (8).
* `Chain.v`, `HbProofs.v`, `UseProofs.v`, `HbRefute.v`: C62-C65, happens-before over the trace; spec in `HbSpec.v`.  `Chain.v`: where
  a pair object is (a pool, a thread's hands, a queue) moves only by the marks of the trace.
* `SubsProofs.v`, `SubsRefute.v`: C66; spec in `SubsSpec.v`.
* `ErrorProofs.v`, `ErrorProofs2.v`, `ErrorProofs3.v`, `ErrorProofs4.v`, `ErrorRefute.v`: C67; spec in `ErrorSpec.v`.
* `PoolSpec.v`, `PoolProofs.v`, `PoolRefute.v`: C68.
* `Refuse.v` (model: steps in which a queue refuses an event), `RefuseSpec.v`, `RefuseProofs.v`, `RefuseRefute.v`: C69.
* `DetSpec.v`, `DetProofs.v`, `DetRefute.v`: the same events, the same behaviour (C70).
* `Reject.v` (model: steps in which an executor rejects a task), `RejectSpec.v`, `RejectProofs.v`, `RejectProofs2.v`,
  `RejectRefute.v`: C71.
* `Order.v` (model: idle threads take any task), `OrderSpec.v`, `OrderProofs.v`, `OrderProofs2.v`: C72.
* `Discard.v` (model: executors drop waiting tasks), `DiscardSpec.v`, `DiscardProofs.v`, `DiscardProofs2.v`, `DiscardRefute.v`: C73.
* `Threads.v`, `ThreadsSpec.v`, `ThreadsProofs.v`: `util/Threads.java`, an own small transition system.
* `Build.v`, `BuildProofs*.v`, `BuildRun.v`: strategies and machines being built by racing threads,
  an own transition system; `env_of` turns a built system into the `env` of the main model.
* `Demo*.v`, `Witness.v`: concrete executions for the Examples; `RefuteProofs.v`, `RefuteBuild.v`:
  executions that refute expectations.
* `Props*.v`: the property theorems, each proved by `exact lemma`, followed by `Print Assumptions`
  and an `Example` in which a concrete execution meets the hypotheses.

Expectations that the code violates are theorems `..._refuted` (a concrete execution, checked by the
kernel's `vm_compute`), next to the theorem that states what does hold.

## 2. Trusted base

* Coq 8.16.1's kernel, including its virtual machine (`vm_compute`).
* `Print Assumptions` of every theorem in `Props*.v`: "Closed under the global context".  No axioms,
  no `Admitted`, no switched-off checks, no plugins.  (`coqchk` also lists axioms of library files
  that are merely loaded; no theorem uses them.)
* That the definitions of `Prog.v`, `Config.v`, `Mem.v`, `Machine.v`, `Sched.v`, `Lifecycle.v`,
  `Names.v`, `Threads.v` and `Build.v` describe the Java code (each cites file and lines), with the
  simplifications of section 4.
* That the specification files say what the English statements in `properties.jsonl` say.

## 3. Properties

| id | modelled by | proof |
|----|-------------|-------|
| C01-C05 | `Config.v` | refinement of `Config.v` to `ConfigSpec.v` by induction over call histories; C05's expectation refuted |
| C06 | `start`, `start_in` | language of the bracket + values read are true; hypotheses: configuration and started flag do not change during the call |
| C07 | `ICasStarted`, whole model | replay of the trace: at most one `OStarted` per machine |
| C08 | `fire` | language of the bracket + truth of the flags read |
| C09 | `default_process`, `drain_iter`, pool | ownership invariant: taken ++ queued = accepted, for any number of workers |
| C10 | `default_process`, `drain_iter`, executor | token invariant: a non-empty queue implies a pending task, a running drain loop or a firing thread about to submit |
| C11 | `execute`, `drain_iter` | language ⇒ script (any interference); with `calm` the script is a run of the configured automaton, event by event |
| C12 | all writers of the current state | every `OState` of the trace lies in a bracket whose language determines its source |
| C13 | `drain_iter`, executor | brackets of one thread do not overlap; private queue and one worker |
| C14, C15 | `execute` | consequences of the scripts |
| C16 | `execute`, `notify` | language, no hypotheses on interference |
| C17 | `drain_iter` | language (reporting); calm script (state afterwards) |
| C18 | `execute`, `cfg_ends_at` | calm script |
| C19, C22, C23, C38, C41, C44 | whole model | expectation refuted by an execution; positive counterparts by the scripts and `StuckProofs.v` |
| C20, C21 | `update_current`, `start`, `fire`, `drain_iter` | only `start` in progress can clear the flag; language of a take with the flag read |
| C24 | pool, queue | ownership invariant |
| C25 | `default_process`, `INewCopy` | freshness and immutability of copies |
| C26, C27 | `default_process`, `process_event`, `queue_size`, `any_next` | counting invariant over the firing threads (an operation counts from the beginning of its walk), for every schedule; sharp bound refuted for 2 threads; refusal although never full refuted |
| C28, C47-C49 | `Build.v` | invariants over every interleaving of builder threads; C48: refinement to a sequential reading of the calls of one thread (`field_after`) under interference; refutations by executions of what was built |
| C29 | `Build.v` and the whole model | separate objects (invariant of `Build.v`), then isolation of private queues |
| C30 | `each_consumer` | language of the walk, replay of the entries (`MultiProofs.v`); refuted: that all called were registered at one moment, that a removed consumer is not called |
| C31, C33, C35, C45 | `call_listener`, `act_code`, `run_acts` | languages of callbacks |
| C32, C46 | `Threads.v` | invariant over every interleaving; injectivity of decimal printing; wrap-around at 2^32 computed |
| C34 | `Lifecycle.v` | computation of the table, case analysis over all names |
| C36, C37 | `app_start`, `app_stop`, latch | language + truth of the state read; trace invariant of the latch |
| C39 | queue, `queue_size` | replay; the count lies between what stayed and what passed; exact if nobody adds or takes meanwhile |
| C40 | `Names.v`, `Config.v` | algebra |
| C42 | executor | language of `fire` |
| C43 | `start`, `start_in` | language ⇒ script of start |
| C50, C51 | whole model, endless schedules | well-founded argument on programs and nesting depth; C51: the token of C10 is never lost, its holder looks at the queue |
| C52, C53 | app service on endless schedules | induction over the history: the k-th event offered is the k-th of the life cycle, so the state and the subsystem calls after k events are known; C51 drives it on |
| C54 | accepted events take effect on endless schedules | C51 (processed in turn) composed with C11 (each processed event is a step of the automaton) |
| C56, runtime calls of C04, `error()` of C36, default handler of C14 | `api_prog` of `Machine.v` | language of each call + truth of what it reads; a change of a place or configuration sits in a bracket that may make it (`Place.v`) |
| C57 | `ufl_default` of `Machine.v` | language of the callback + truth of what it reads |
| C58 | `app_start` of `Machine.v`, interrupt flags of `Mem.v` | language of the call, split into its steps, with the moment of each; invariant: the interrupt flag is what the trace says |
| C59 | as C52 | five refutations by concrete executions (`Demo14.v`), hypotheses: constructed app service, users call only start(), stop(), error() |
| C60 | as C52 | the induction of C52/C53 with the fate of the subsystems as a parameter (all go / one never starts / one never stops): it fixes the sequence of lifecycle events, states and subsystem calls; non-vacuity by four endless executions (`Demo15.v`) |
| C61 | as C52; calls of start()/stop() in turn | the same induction with the fate Again, whose sequence of lifecycle events has no end (`per`): the number of events offered is bounded by, and when the app rests equal to, twice the number of calls; non-vacuity by an endless execution with five calls (`Demo16.v`) |
| C62 | marks as accesses of plain fields; happens-before = program order + AtomicBoolean, queue, pool and latch edges (`HbSpec.v`) | ownership: between two accesses a pair is handed from thread to thread only through a queue or a pool, each hand-over an edge (`Chain.access_hb`); the scan of `DropDuplicateEventStrategy` refuted by an execution, with all edges one could think of (`sw_max`) and a computed closure (`Demo17.reached`, proved sound) |
| C63 | as C62 | the take is matched with the last offer of its pair; every fire() reads the ended flag before it offers (language of `fire`), which is the edge from the write that ends start() |
| C64 | as C62 | all processing is by one thread (`take_worker`); start() is ordered before the first take by C63 (`confined_race_free`, any data); from conditions on the calls: every access lies in the processing of an event or in a call on the machine, and no call of the starting thread accesses it after the end of start() (`UseProofs.v`); five refutations |
| C65 | as C62 | a start() that returned without interruption came past the latch (`app_start_returns`), the first countDown() is the edge; the subsystems: their marks are complete at the first release (C53) and all by the processing thread |
| C66 | subsystems of a context as a memory cell read by each STARTING/STOPPING action, written by withSubsystems() | the frame of an action says where its subsystem marks come from (`frame_ok`, also of an unfinished action); `subsystems_at` only changes at a mark inside withSubsystems() (C56); the AtomicReference edge from the last write before the read |
| C67 | the machine of an app service under arbitrary calls of start(), stop(), error() | the table and the actions of the machine are the initial ones at every moment (nobody touches them), so a take span moves the state by `life_step` (`t_state`); UNINITIALISED is left once and for all; induction over the take spans gives the states at rest (`rest_inv`); error() either sees the machine ended or offers the error event, which is processed by C51; with exit on stop, entering STOPPED sends a stop event, and as long as the machine is STOPPED that event is in the queue (`stopped_stays`), so that it is processed and ends the machine |
| C68 | the pool is a list of object numbers; take on an empty pool makes a new number | invariant: every object ever offered is in the queue, in the hands of a thread or in the pool; a new one is made only while the pool is empty, and at that moment all objects are in the queue or in hands (`own_hands` bounds the latter); with C26's bound of the queue this becomes a constant; refutation by running two machines with one queue and two pools |
| C69 | `Refuse.v`: executions in which the queue may refuse at any moment, by an arbitrary rule | induction over the steps: without refusal the step is one of Sched.v; at the first refusal let the offer be accepted instead, which contradicts C26's bound; order by the ownership invariant, the refused pair being held by a thread that never runs |
| C70 | two executions of `Sched.v`, of possibly different environments | C11's run of the automaton for each; the automaton's steps are deterministic once the callbacks' outcomes are (composition lemma for `seq`), names are fixed once the event is taken |
| C71 | `Reject.v`: executions in which an executor may reject a task at any moment, by an arbitrary rule | soundness of the ghost-state logic for the rejected step; C10's token count with one token kept per rejection; own executor: as long as the queue is not empty a thread is about to submit, a worker is draining or a task waits |
| C72 | `Order.v`: executions in which an idle thread takes any waiting task or none, by an arbitrary rule | one machine per executor: all its tasks are equal, so the steps are those of Sched.v; else the invariants of C09, C10 and C17 do not depend on the order of tasks (permutations) |
| C73 | `Discard.v`: executions over `Order.v` in which executors drop any waiting tasks, by an arbitrary rule | the invariants of C09 and C17 do not mention which tasks wait; for (d) the invariant of C71: while the queue is not empty, a task waits, runs, or is about to be submitted; for (f) each execution is simulated by one of C72 in which the dropped tasks are still there, whose token count bounds the queue; when the queue is empty the dropped tasks are forgotten |
| C55 | `AppBuild.v`: the constructor as calls of a builder thread of `Build.v` | invariant: one strategy from the Config, referenced by one variable and one Builder, one machine from it; C48 for its contents |

All are proved; none is left partial.

## 4. Modelled and not modelled

Modelled, function by function: `GenericStateMachine` (all methods and the Builder's strategy
handling), `NamedState`, `NamedStateEvent`, `HandleExceptionAction`, `LoggingStateMachineListener`,
`MultiConsumerStateMachineListener`, `strategy/*`, `service/AbstractAppService`,
`service/LifecycleStateMachineUtil`, `util/Threads`, of `service/AbstractAppContext` the subsystems,
the thread name and the init arguments; of the JDK: AtomicBoolean/Integer operations,
ConcurrentLinkedQueue (offer, poll, isEmpty; size and iteration as walks over a queue that changes meanwhile), ArrayList.forEach with
its modification check, HashMap get/put keyed by name, an executor with n threads and `shutdown`,
CountDownLatch with interruption, ConcurrentHashMap (putIfAbsent, remove, weakly consistent iteration).

Simplifications:
* Java memory model: the model is sequentially consistent.  `currentState`, `stateMachineListener`,
  the payload and the configuration fields are plain fields; stale reads are not modelled.  C62-C65 say
  which accesses of pair objects and of `currentState` are ordered by happens-before, and which are data
  races; a program without data races is sequentially consistent (JLS 17.4.5).  Trusted there: which
  marks synchronize (`sw_min`): `AtomicBoolean` (GenericStateMachine.java:29-30),
  the `AtomicReference` of the subsystems (AbstractAppContext.java:17), the
  memory-consistency guarantee of `ConcurrentLinkedQueue` (pool: EventMachinePairPool.java:15; default
  event queue: EventProcessingStrategyFactory.java:141 - a queue supplied by the user must give it too),
  `CountDownLatch` (AbstractAppService.java:29).  The edge executor.execute() gives is not used.
* A configuration call, and the reads of the table by `start` (`IDangling`, `IMapEmpty`) and
  `TransitionTask` (`IMapGet`, `IEndsAt`), are each one atomic step.
* `ConcurrentLinkedQueue.size()` is two steps, the beginning (`IQLook`) and the end (`IQSize`) of the
  walk; its result is *any* number between the number of pairs that were in the queue throughout and
  the number of pairs that were in it at some moment between.  The iteration in
  DropDuplicateEventStrategy (`IQIter`, `IQNext`) visits what is in the queue when it gets there and may
  or may not see a pair added behind the last one.  Which of the possible results one gets is decided by
  `chance : trace -> nat`, an arbitrary function of the history in the environment, over which every
  theorem quantifies.  The iteration visits arbitrarily many pairs one by one (again `chance`) and those
  left after that in one step (`IQRest`); programs are finite trees, so a number must be fixed.
* The iteration over the ConcurrentHashMap of MultiConsumerStateMachineListener (`each_consumer`): in any
  order, it visits every entry that is there throughout, may visit an entry that is added or removed
  meanwhile, and no entry twice; like the JDK iterator it looks for the next entry before the loop body
  runs on the present one.  An entry that is removed and put again counts as another entry.  Consumers
  that are themselves multi-consumer listeners are not modelled.
* The two fields of a pair are read and written in one step.
* A worker thread whose task dies is replaced at once (ThreadPoolExecutor behaviour).  The executor
  is a FIFO of tasks; user executors with other policies are modelled in `Reject.v` (they reject tasks),
  `Order.v` (any order of tasks) and `Discard.v` (they drop tasks), for C71, C72 and C73 only; executors that run a task on the
  submitting thread are not modelled.
* The line `DefaultUnexpectedFlowListener` logs about an exception is modelled without the thread name
  and the stack trace.
* Names and arguments are not null, except where the code tests for null (listener, actions,
  handlers, thread names).
* The static environment (`env`: strategies, names, executors) does not change while the machines run;
  how it comes about is the subject of `Build.v`.

Not modelled (no property refers to it):
* User implementations of `State`, `StateEvent`, `EventProcessingStrategy`, `StateMachine`; of `Queue` those that
  are not first-in-first-out (queues that refuse events: `Refuse.v`).
* The log lines of `uncaughtException` handlers.
* A context shared by two app services (each has its own, as the ids of subsystems are per app service); a list
  given to `withSubsystems` that is changed afterwards.  `toString` except where it goes into log lines,
  Builder setters for context and listener.
* Interruption of worker threads (client threads have an interrupt flag).
* Real time, memory exhaustion.

## 5. Testing the theorems

`seeded/LOG.jsonl`: realistic bugs put into a copy of the model, rebuilt lemma by lemma (a failing proof
is replaced by `Admitted` and the assumptions of every property theorem are listed, so that one sees
exactly which theorems no longer hold).  Where a bug changes what a method does, the internal language
of that method in `Lang.v` is changed with it, so that only the theorems that really depend on the claim
fail.
