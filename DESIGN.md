# Formal model of cptrodgers/aj in Rocq (Coq 8.16.1)

## Approach

The functions of `aj_core` that touch the backend, the clock or the plugin centre are
written as *programs* (a free monad, `Prog.v`), function by function, with the same calls in the
same order.  Their only effects are the calls of the Rust `Backend` trait, `get_now` and messages to
the plugin centre.  A program is interpreted by a *handler*:

* `mem_h`    the `InMemory` backend, no faults; the k-th reading of the clock is given by an
             arbitrary function `clock : nat -> Z`;
* `redis_h`  the `Redis` backend over a model of the Redis commands it issues;
* `faulty_h` the in-memory backend where an arbitrary function decides for each call: succeeds /
             fails without effect / takes effect but the reply is lost;
* `wire_h`   Redis where opening a connection and each single command may fail or lose its reply;
* any `h`    theorems about "any backend" quantify over the handler;
* `run_n`    the first n effects of a program only (the process dies inside a handler).

On top there are several state machines.

* `Sys.v`: one work queue actor.  Events: each API message, a tick, one poll of a task (up to its next
  await point), a panic of user code, a crash, a crash after n effects of a step, a start.  A history
  is an arbitrary list of events; the payload type, what user code returns and leaves in its payload,
  its failure and its `retry_at` are arbitrary.
* `Plugin.v`: the plugin centre next to one queue, with its mailbox and with hooks that take time.  `PluginRedis.v`: the same next to a queue on Redis.
* `Multi.v`: several queues on threads of their own, interleaved at single backend calls.
* `Workers.v`: several processes with the same queue on one store; `WorkersRedis.v`: on one Redis server.
* `Race.v`: several processes on one storage, call by call, with failing calls and deaths anywhere.
* `Client.v`: any number of callers of `AJ::…`, the AJ actor, mailboxes, one queue, crashes.
* `Office.v`: the same with any number of job types, whose queues interleave at single backend calls.  `OfficeRedis.v`: on Redis.
* `Registry.v`: first use of job types and `AJ::start` by several threads.
* `Text.v`: JSON text as serde_json writes and reads it; the in-memory backend with its strings.
* `Timer.v`: one queue in real time: its timer, ticks and restarts, with a runtime that may be late.
* `Builder.v`: chains of the builder calls `Job::new`, `delay`, `cron`, … as a fold over a job.
* `Macro.v`: the `#[job]` attribute as a function on tokens.

Proof methods: invariants by induction over histories, and under faults and crashes over single effects;
refinement (InMemory against lists, Redis against InMemory, callers against sequential histories);
loop invariants for the picking loop at any length; for refutations a computed witness, or an
invariant of all continuations.  Nothing is bounded.  Lines named `Example` are tests: they show that the
hypotheses of the theorem beside them can be met.

Integers: time is `Z` nanoseconds.  i32 counters overflow as in Rust, for both build profiles
(`Debug`: panic, `Release`: wrap).  List lengths are unbounded; the conversion of the waiting list's
length to i32 (queue.rs:258) wraps.

## Files

**Model (definitions only)**

| file | content |
|---|---|
| `Types.v` | Data types of aj_core/src/job/*.rs and the plain (effect free) functions on them |
| `Json.v` | How `Job<M>` is written to and read from storage: the serde derives of job/*.rs with serde_json |
| `Prog.v` | Effects of the code, programs over them, interpreters |
| `Backend.v` | The backends: InMemory (aj_core/src/backend/mem.rs), Redis (aj_core/src/backend/redis.rs), and fault injection |
| `Queue.v` | The work queue: aj_core/src/backend/types.rs:44-70, the effectful part of aj_core/src/job/mod.rs and aj_core/src/queue.rs, function by function, as programs |
| `Sys.v` | The WorkQueue actor as a state machine over events |
| `Demo.v` | A concrete payload type, clock and cron schedule for the examples (tests, not proofs) |
| `Plugin.v` | The plugin centre (aj_core/src/plugin/) next to one work queue |
| `Multi.v` | Several work queues on one backend |
| `Registry.v` | First use of a job type (aj.rs:34-47, 110-158, 230-312; lib.rs:33-59) and AJ::start (aj.rs:49-104), with any number of callers on any threads |
| `Macro.v` | The #[job] attribute (aj_macro/src/lib.rs:28-176) and the BackgroundJob derive (aj_macro/src/lib.rs:8-26), on the level of tokens |
| `Workers.v` | Several worker processes on one queue |
| `Client.v` | Callers of the API in front of one queue: the functions of AJ (aj.rs:137-252), the messages of the queue (queue.rs:402-559), mailboxes, and the registration of the queue by the first submission |
| `Builder.v` | The builder functions of aj_core/src/job/mod.rs:51-124, called by the submitting code (not by the queue's actor) before AJ::add_job |
| `Timer.v` | The timers of a work queue: `ctx.run_later(..)` in process_jobs (aj_core/src/queue.rs:237-239) |
| `Text.v` | JSON text: serde_json's `to_string` and `from_str` (called in aj_core/src/backend/types.rs:51 and 66) for the JSON values of Json.v |
| `Race.v` | Several queues or processes on one storage, call by call |
| `Exec.v` | User code: the methods of the trait `Executable`, and how one execution calls them |
| `Office.v` | A process with any number of job types: AJ with its registry and mailbox, the queues of the job types, each on its own thread (queue.rs:105-113, one Arbiter each), all on one backend (aj.rs:123), and the callers of all of them (Client.v) |
| `Wire.v` | Redis behind a connection that may fail at every step |
| `WorkersRedis.v` | Several worker processes on one Redis |
| `PluginRedis.v` | The plugin centre next to a work queue whose store is Redis |
| `OfficeRedis.v` | A process with any number of job types whose backend is Redis |

**Specifications**

| file | content |
|---|---|
| `Spec.v` | Specifications used in the statements of the theorems, independent of the code's structure |
| `SpecPlugin.v` | Specifications for the plugin properties |
| `SpecMulti.v` | Specifications for several queues on one backend |
| `SpecRegistry.v` | Specifications for the first use of job types and for AJ::start |
| `SpecMacro.v` | The fragment of Rust that the expansion of #[job] uses: grammar and meaning |
| `SpecValue.v` | What is stored under an id and what user code is called with, whatever fails |
| `SpecWorkers.v` | What is claimed about several processes on one queue |
| `SpecClient.v` | What callers can rely on |
| `SpecLive.v` | Endless executions of a queue |
| `SpecBuilder.v` | What a chain of builder calls says about the job it makes |
| `SpecTimer.v` | Ticks in time |
| `SpecText.v` | Specification vocabulary for JSON text |
| `SpecRace.v` | What is claimed about processes whose steps overlap |
| `SpecCount.v` | What is claimed about the number of executions of a job and its payload |
| `SpecStray.v` | Executions that are to be followed by another one, and jobs that are stored as waiting but are in no list |
| `SpecLost.v` | What is claimed about cancelling a job while other processes work |
| `SpecSpace.v` | What is claimed about the space that jobs take in the storage |
| `SpecFleetLive.v` | When a waiting job is taken by one of several processes |
| `SpecShort.v` | Waiting lists that fit one batch |
| `SpecLocked.v` | Processes on one queue of which only one at a time picks jobs |
| `SpecSched.v` | The work queue as a scheduler: a machine without backend, keys, JSON, clock counters or programs, that says for every event what the queue does |
| `SpecOffice.v` | Several job types in one process |
| `SpecWhy.v` | What the status of a job tells about what has happened |
| `SpecRead.v` | Vocabulary for how stored jobs are read: which JSON values are read as which job |
| `SpecCost.v` | What a step costs: the number of calls it makes to the backend |
| `SpecRange.v` | The ranges of the Rust types of a job's numbers (aj_core/src/job/job_context.rs:11-33, 69-82, aj_core/src/job/retry.rs:7-23), which the model's integers do not have |
| `SpecFrame.v` | Which jobs an event is about, and what the other jobs see of it |
| `SpecEnd.v` | Endless executions of a process with its callers |
| `SpecOutput.v` | What is claimed about the way from the output of the user code to the record of the job |
| `SpecDrain.v` | A queue that gets no more work |
| `SpecEver.v` | Cron jobs without limits |
| `SpecFleetFair.v` | Endless executions of a queue that several processes work on |
| `SpecRedisLive.v` | Endless executions of a queue whose store is Redis |
| `SpecAny.v` | Endless executions that begin with any content of the storage |
| `SpecCut.v` | What is left in the storage when a step is cut off somewhere: the table of its writes, in order |
| `SpecBack.v` | Which jobs can be brought back by calls of the API |
| `SpecAdrift.v` | What is claimed about jobs in limbo when any number of processes race |
| `SpecKeys.v` | A queue on a Redis server that holds any other keys, and any content under its own |
| `SpecNoise.v` | Other programs on the same Redis server that change other records, too |
| `SpecFleetRest.v` | A fleet that gets no more work |
| `SpecFleetRedis.v` | Endless executions of several processes on one Redis |
| `SpecFrontRedis.v` | Callers and timers of a queue whose store is Redis |
| `SpecPluginRedis.v` | Specifications for plugins next to a queue on Redis |
| `SpecOfficeRedis.v` | Several job types in one process whose backend is Redis |
| `SpecSoft.v` | Several processes on one queue that may die in the middle of most of their steps |

**Property theorems**

| file | content |
|---|---|
| `PropBackend.v` | Properties C01-C05: the backends |
| `PropSubmit.v` | Properties of the API calls: submitting, cancelling, updating, retrying, reading |
| `PropHist.v` | Properties of whole histories: life cycle of an id, limits, lists |
| `PropPick.v` | Properties of ticks: capacity, termination, order, starvation, configuration |
| `PropTime.v` | Properties of start times, retries and cron jobs |
| `PropFault.v` | Crashes, panics and failing backend calls |
| `PropPlugin.v` | Plugins: run hooks and status notifications |
| `PropMulti.v` | Several queues on one backend |
| `PropRegistry.v` | First use of job types, AJ::start |
| `PropMisc.v` | The #[job] attribute; conversion of milliseconds |
| `PropOrder.v` | The order of starting, for waiting lists of any length |
| `PropValue.v` | Stored jobs and executions, whatever backend calls fail and wherever the process dies |
| `PropWorkers.v` | Several worker processes on one queue |
| `PropClient.v` | Callers of the API in front of a queue |
| `PropCases.v` | What fails when backend calls fail: submissions, the limit, completions, slots |
| `PropLive.v` | Endless executions: every waiting job is executed |
| `PropBuilder.v` | Properties of the job builders and of the first execution of what they make |
| `PropTimer.v` | Properties of the queue's timer: ticks and start times in real time |
| `PropText.v` | C80: what is stored is text, and jobs come back from their text |
| `PropRace.v` | Processes whose steps overlap, call by call, with failing calls and deaths anywhere |
| `PropCount.v` | Payloads and run counts |
| `PropStray.v` | Executions that are to be followed by another one, when backend calls fail |
| `PropLost.v` | Cancelling a job while other processes work |
| `PropSpace.v` | The space that jobs take in the storage |
| `PropFleetLive.v` | Waiting jobs and lost slots with several processes on one queue |
| `PropShort.v` | Waiting lists of at most 20 ids: every waiting job is started, however many arrive |
| `PropLocked.v` | Processes of which only one at a time picks jobs: nothing is executed by two at a time |
| `PropLong.v` | C13 and C12 for waiting lists of any length, 2^31 ids and more included |
| `PropSched.v` | C93. The work queue is a scheduler |
| `PropOffice.v` | Several job types in one process |
| `PropWhy.v` | What the status of a job tells about what has happened |
| `PropWait.v` | Who waits for plugins, and for how long |
| `PropRead.v` | Reading stored jobs |
| `PropWire.v` | Redis with failing connections and commands |
| `PropCost.v` | How many backend calls a step makes |
| `PropRange.v` | Every number stays in the range of its Rust type |
| `PropFrame.v` | An operation on one job leaves all other jobs alone |
| `PropCommute.v` | Operations on different jobs commute |
| `PropEnd.v` | From the call to the execution, in endless executions of a process |
| `PropOutput.v` | From the output of the user code to the record of the job |
| `PropDrain.v` | A queue that gets no more work comes to rest |
| `PropEver.v` | A cron job without limits is executed again and again |
| `PropFleetFair.v` | Every due job is executed by some process of a fleet that lives on |
| `PropRedisLive.v` | Progress, rest and repetition of a queue on Redis |
| `PropAny.v` | Progress whatever the storage holds: after outages, crashes in the middle of a step, or foreign content |
| `PropCut.v` | The order of the writes of a step, and what a crash in the middle of it leaves |
| `PropBack.v` | Which jobs calls of the API can bring back, and which they cannot |
| `PropAdrift.v` | Limbo is final also when any number of processes race |
| `PropKeys.v` | A queue on a Redis server that other programs use too: what it touches, sees, and does with values of the wrong type |
| `PropNoise.v` | Other queues and programs on the same Redis server, that change records of other ids at any time |
| `PropFleetEver.v` | A fleet executes a cron job without limits again and again |
| `PropFleetRest.v` | A fleet that gets no more work comes to rest |
| `PropFleetRedis.v` | Progress, rest and repetition of several processes on one Redis |
| `PropFrontRedis.v` | Callers and timers of a queue on Redis |
| `PropPluginRedis.v` | Plugins next to a queue on Redis |
| `PropOfficeRedis.v` | Several job types in one process whose backend is Redis |
| `PropSoft.v` | Theorems about processes that die in the middle of their steps |

**Tests of the model**

| file | content |
|---|---|
| `RepoTests.v` | The repository's own unit tests and examples, run on the model |

**Proofs**

| file | content |
|---|---|
| `JsonFacts.v` | Proofs about the storage encoding |
| `BackendFacts.v` | Facts about the backends: proofs for C01-C05 |
| `WorldFacts.v` | What the handlers of the work queue do to an in-memory world, as equations |
| `MicroFacts.v` | Every step of the actor on the InMemory backend (crashes inside a handler excepted) is a sequence of a few kinds of small changes |
| `LifeFacts.v` | The life of one job id: in orderly histories every id is always in one of six situations, and the small changes of MicroFacts.v move it between them along few transitions |
| `HistFacts.v` | From single small changes to whole histories: every orderly history moves an id along [pstep]s |
| `RedisFacts.v` | The work queue on Redis behaves as on InMemory: all its calls are portable |
| `SubmitFacts.v` | Facts about single API calls, in any state of the world |
| `LifeProps.v` | Consequences of the life cycle of an id for whole histories |
| `ListFacts.v` | The status lists against the stored statuses |
| `ApiFacts.v` | API calls in reachable states |
| `PickFacts.v` | The picking loop of a tick, for waiting lists of any length |
| `StarveFacts.v` | A steady flow of arrivals that starves waiting jobs (C15), and configuration changes (C50) |
| `TimeFacts.v` | Executions of one id and the clock: a scheme for invariants of the job type and retry state |
| `RetryFacts.v` | Start times, automatic and manual retries |
| `CronFacts.v` | What happens after a failed execution with a retry policy; cron jobs |
| `FaultFacts.v` | Invariants of single backend calls, valid after every prefix of a handler and with any backend fault; an acknowledged job is not lost before its first run |
| `OrphanFacts.v` | A job without a task whose record says Running stays as it is, and in the processing list if it is there, whatever events, crashes and crash points follow |
| `CrashFacts.v` | Consequences of crashes, panics and backend faults |
| `PluginFacts.v` | Proofs about the plugin centre next to a queue |
| `NoteFacts.v` | Messages to the plugin centre: status notifications and hooks |
| `PluginOrder.v` | Which calls plugins get, and in which order |
| `MultiFacts.v` | Several queues on one backend: non-interference |
| `RegistryFacts.v` | First use of job types; AJ::start |
| `MacroFacts.v` | The expansion of #[job]; conversion of milliseconds |
| `OrderFacts.v` | The order in which a tick starts jobs, for waiting lists of any length |
| `ValueFacts.v` | Invariants of the stored jobs, the tasks and the executions that hold whatever backend calls fail and wherever the process dies |
| `ValueProps.v` | Instances of the value invariants of ValueFacts |
| `WorkersFacts.v` | Several processes on one queue: the small changes of one process, seen with the tasks of all |
| `ClientFacts.v` | Callers in front of the queue: their answers are those of a history of the queue |
| `ClientProgress.v` | No caller waits for ever |
| `FaultCases.v` | What single operations do for every combination of failing backend calls |
| `LiveFacts.v` | Progress in endless fair executions |
| `BuilderFacts.v` |  |
| `TimerFacts.v` |  |
| `TextFacts.v` | Proofs about JSON text |
| `RaceFacts.v` | Processes whose steps overlap: a rely/guarantee condition on programs, and what follows for races |
| `RaceValue.v` | Invariants of stored jobs, tasks and executions under races: as ValueFacts.v, but between any two calls of a step the storage may change and the clock may be read by others |
| `RaceProps.v` | Instances of the invariants of RaceValue.v |
| `RaceList.v` | Ids in the lists under races |
| `RaceSim.v` | Races contain the histories of one process with faults and the fleets of Workers.v; races on Redis are those on the in-memory backend |
| `RaceBack.v` | The races of a single process are the histories of Sys.v with failing calls and crashes |
| `RaceTick.v` | The picking loop under races |
| `RaceLoop.v` | When the picking loop ends |
| `RaceCases.v` | Races that go wrong |
| `CountFacts.v` | Payloads and run counts, under races |
| `StrayFacts.v` | A job stored as Queued whose id is not in the waiting list is never executed, whatever events, crashes and crash points follow, unless it is cancelled |
| `StrayCases.v` | The end of an execution that is to be followed by another one, for every combination of failing backend calls |
| `RaceLost.v` | An id that waits in no list and is in no process's hands is never executed |
| `LostCases.v` | A cancellation in the middle of another process's tick |
| `RaceSpace.v` | The space taken by jobs: which keys are used, and how many entries lists may have |
| `SpaceCases.v` | One id, submitted again and again, takes ever more space |
| `FleetLive.v` | A waiting job is taken by some process of a fleet |
| `ShortFacts.v` | No starvation, however many jobs arrive, as long as the waiting list fits one batch |
| `ShortLive.v` | Endless executions whose waiting lists fit one batch |
| `LockedCore.v` | Who holds which id: an invariant of the lists, with what each process holds as auxiliary state |
| `LockedFacts.v` | Programs that respect the invariant of LockedCore.v, whatever the other processes do |
| `LockedRace.v` | Races of processes that do not pick at the same time |
| `LockedLoop.v` | When the picking loop ends, if ticks take turns |
| `LockedLive.v` | Ticks that take turns take the waiting jobs |
| `LockedCases.v` | Histories of processes of which only one at a time picks jobs, and a cancellation during a tick |
| `StarveCases.v` | A job that is never taken, since others arrive in the middle of ticks |
| `LongFacts.v` | Waiting lists of any length, 2^31 ids and more included |
| `SchedFacts.v` | Every step of the queue is a step of the scheduler of SpecSched.v |
| `SchedDet.v` | With a clock that stands still, the scheduler of SpecSched.v leaves no choice |
| `SlotFacts.v` | The order of the processing list |
| `OfficeFacts.v` | Several job types in one process: what concerns one type is a history of Client.v |
| `WhyFacts.v` | The status of a job tells what has happened |
| `PluginWait.v` | Who waits for plugins, and for how long |
| `ReadFacts.v` | Proofs about how stored jobs are read |
| `WireFacts.v` | The work queue on Redis with a connection that may fail at every command behaves as with calls that fail as a whole |
| `CostFacts.v` | The number of backend calls of a step |
| `RangeFacts.v` | Every number stays in the range of its type |
| `FrameFacts.v` | Operations on one job leave the others alone |
| `CommuteFacts.v` | Operations on different jobs commute |
| `EndFacts.v` | Fair endless executions: every call comes to its end |
| `EndLive.v` | Fair endless executions: every submitted job is executed |
| `OutputFacts.v` | From the output of the user code to the record of the job |
| `DrainFacts.v` | A queue that gets no more work comes to rest |
| `EverFacts.v` | A cron job without limits is executed again and again |
| `FleetFair.v` | Progress in endless fair executions of a fleet |
| `RedisLive.v` | Endless executions on Redis are those on the in-memory store |
| `AnyFacts.v` | Progress with any content of the storage |
| `CutFacts.v` | The writes of a step, one by one |
| `BackFacts.v` | Bringing a job back by calls of the API |
| `AdriftFacts.v` | A job in limbo stays there however many processes race: a condition on the calls of all programs, given answers of a storage in which the job is in limbo |
| `KeysFacts.v` | A queue on Redis touches and sees its own keys only, and is there what it is on the in-memory store |
| `NoiseFacts.v` | A queue on a Redis server whose other users change anything but its lists and records |
| `FleetEver.v` | Fleets whose waiting lists fit one batch, and cron jobs without limits on them |
| `FleetRest.v` | A fleet that gets no more work comes to rest |
| `FleetRedis.v` | Several processes on one Redis do what they do on one in-memory store |
| `FrontRedis.v` | A process with its callers, and one with its timers, does on Redis what it does on the in-memory store |
| `PluginRedisFacts.v` | A queue on Redis shows plugins what a queue on the in-memory store shows them |
| `OfficeRedisFacts.v` | A process with several job types does on Redis what it does on the in-memory store, call by call |
| `SoftFacts.v` | Facts about processes that die in the middle of ticks, task steps and retries |
| `SoftSteps.v` | The steps of processes that die in the middle of ticks, task steps and retries |
| `CancelCut.v` | Where a process dies inside a cancellation |

## Properties

Status "partial" means: the statement of the property is false for the code.  The theorems with suffix
`_refuted` prove that, the others prove the part that holds and say where the border is.

| id | property | status | note |
|---|---|---|---|
| C01 | In-memory queues behave as double-ended lists | proved |  |
| C02 | Storage reads return the last write | proved |  |
| C03 | Moving items never loses or duplicates one | proved |  |
| C04 | Redis and InMemory backends are interchangeable | partial | false for queue_get with count 0 and for moves of several items within one list; equal on all other calls, hence for the work queue |
| C05 | Queue keys never collide | proved |  |
| C06 | run() on a new id queues the job exactly once | proved |  |
| C07 | One pending execution per id | proved |  |
| C08 | Re-submission of a completed job | proved |  |
| C09 | A job id never executes twice at the same time | partial | proved for orderly histories; false with stale update_job snapshots |
| C10 | The processing limit is never exceeded | proved |  |
| C100 | Every number stays in the range of its type | proved | Intermediate results inside chrono (the product of a duration and a power of two) are not covered; payload data is the user's. |
| C101 | An operation on one job leaves all others alone | proved | On the in-memory backend with failing calls. |
| C102 | Operations on different jobs commute | proved | In memory, the clock standing still between the two; ticks are not among the operations (they look at all jobs). |
| C103 | From the call to the execution | proved | Fairness, survival and bounded arrivals are hypotheses about the execution, as in C69; the second part on the in-memory backend. |
| C104 | The output of the user code decides what becomes of the job | proved | In memory, for orderly histories (as C09); what is lost when backend calls fail is in C85. |
| C105 | A queue that gets no more work comes to rest | proved | Fairness and survival are hypotheses about the execution, as in C69; on the in-memory backend. |
| C106 | A cron job without limits is executed again and again | partial | Holds for processes that stay alive; false in builds with overflow checks, where the 2^31-th repetition overflows the counter and kills the queue (refuted and the bound proved). Longer waiting lists can starve a job (C15). |
| C107 | Every due job is executed by some process of a fleet that lives on | proved | Whole steps of the processes take turns, as in C88 and C89; fairness and survival are hypotheses about the execution. |
| C108 | Progress, rest and repetition of a queue on Redis | proved | Redis commands are modelled one by one and do not fail here (failures: C98). |
| C109 | A queue makes progress whatever its storage holds | proved | In-memory backend. The limit must exceed the number of lost entries of the picked list: those are never freed (see the orphan properties). |
| C11 | A scheduled job never starts early | partial | proved up to the storage cut to whole microseconds; false within the last microsecond |
| C110 | A crash inside a step leaves the first so many of its writes | proved | In-memory backend, one process; calls do not fail here (failing calls: C85, C67, C68). |
| C111 | Exactly the jobs stored as running that neither wait nor have a task are lost for good | proved | In-memory backend; calls do not fail after the given state. The new job is due by all clock readings (a job of type Normal is). |
| C112 | A lost job stays lost however many processes race | proved | In-memory backend; with Redis the races are the same (C81_on_redis). The two refuted theorems show that the two conditions, on failing reads of submissions and on steps in progress, are needed. |
| C113 | A queue on a shared Redis server touches and sees its own keys only, and works whatever they hold | proved | Redis backend, one process; calls fail only with values of the wrong type here. The hash of records is common to all queues and is an own key. |
| C114 | A value of the wrong type under a key of the queue is kept, and stops the queue | proved | Redis backend, one process. Tasks that exist when the key is damaged may still run; the theorem starts when none is left. |
| C115 | Other programs may change their keys between any two calls of the backend | proved | Redis backend, one process. Changes between the commands inside one call are not modelled here; every call of the queue is one command, except the connection (Wire.v) and a move of more than one entry, which the queue never makes. |
| C116 | Queues and programs on one Redis server that share the hash of records do not disturb each other | proved | Redis backend, one process of the queue. C45 has several queues of this library interleaved; here the other programs are arbitrary. Queues with common ids do disturb each other (C46). |
| C117 | A fleet executes a cron job without limits again and again | proved | The processes share one cron parser. With overflow checks a process dies after 2^31 repetitions (C106), so that the hypotheses then fail. |
| C118 | A fleet that gets no more work comes to rest | proved | User code does not set times of further tries by a retry_at of its own; the bound on the work (2^31) is for the i32 counter of pick_jobs_to_process. |
| C119 | Several processes on one Redis behave as on one in-memory store, make progress and come to rest | proved | Whole steps of the processes take turns (single commands interleaved: C81). The in-memory results C107, C117 and C118 carried over by a simulation of histories. |
| C12 | Ready jobs are picked whenever there is capacity | proved | C12_work_conserving is for fewer than 2^31 waiting ids. C12_one_batch and C12_long_list_refuted: with 2^31 + 20 to 2^32 ids the loop stops after one batch, so the bound is needed. |
| C120 | On Redis callers get the same answers, submitted jobs are executed, and due jobs start as soon | proved | A simulation of whole histories; every Redis command succeeds (failing ones: C98). One process; several: C119. |
| C121 | Plugins next to a queue on Redis see the same calls, and never hold up anything but the execution that waits for them | proved | A simulation of whole histories; every Redis command succeeds. One queue with its centre; other queues are messages to the centre. |
| C122 | Job types of one process do not disturb each other on Redis, however their commands interleave | proved | A simulation, command by command; every command succeeds. What is false of C94 (another type's race kills AJ for all) is false here too: C122_case_dies. |
| C123 | Processes that die in the middle of ticks, task steps and retries cause no double execution | proved | Whole steps take turns (for overlapping steps see C60, C90); submitted jobs are new or carry the stored status; death inside the commands of one Redis call (queue_move) is not covered. The refuted theorems show that deaths in a cancellation or a submission have to be left out. |
| C13 | Picking terminates | proved | C13_any_length has no bound on the length: never an endless loop; a panic only in a debug build with 2^31 waiting ids or more, and there it does happen (C13_panics, C13_no_panic_refuted). |
| C14 | Jobs start in submission order (FIFO) | partial | proved for waiting lists of at most 20 ids; false for longer ones (unpicked ids of the first batch return behind the rest) |
| C15 | No starvation | partial | proved with the number of free ticks at least waiting ids plus arrivals, and with any number of arrivals as long as no tick finds more than 20 waiting ids (C15_short_lists); false with unbounded arrivals and more waiting ids |
| C16 | Only legal status changes | proved |  |
| C17 | run_count counts executions | proved |  |
| C18 | A canceled job does not run | proved |  |
| C19 | cancel_job reports the truth | partial | Ok is also returned for running and unknown jobs; what cancel does is characterised in every state |
| C20 | Updating a queued job takes effect exactly once | proved |  |
| C21 | update_job reports the truth | partial | false while the job is running; otherwise the data is stored |
| C22 | Updating does not start executions | partial | false for done jobs; otherwise no list changes |
| C23 | Updating with a context keeps the job's identity | partial | false if the context names another id; true if it names the same id |
| C24 | retry_job | proved |  |
| C25 | Manual retry restores the automatic retries | partial | false: retried_times is not reset; the exact number of executions after a manual retry is proved |
| C26 | Automatic retry bound | proved |  |
| C27 | Interval retry spacing | proved |  |
| C28 | Exponential backoff sequence | partial | false: the k-th delay is d*2^k, twice the documented one; proved for k up to 30 |
| C29 | Exponential backoff is safe for every retry count | partial | false from the 31st retry on; safe before |
| C30 | Cron max_repeat | proved |  |
| C31 | One execution per cron slot | partial | false for schedules that end and for clocks set back; proved otherwise |
| C32 | Cron end_at | partial | proved without retry policy; false for retries of a failed cron execution |
| C33 | Expired cron jobs complete | partial | false: an expired cron job waits for ever, in every continuation |
| C34 | A cron job keeps its schedule after a failure | partial | false: after a retried failure the job is never a cron job again |
| C35 | Jobs survive serialization | proved |  |
| C36 | An acknowledged job is not lost before its first run | proved | for all histories, crash points inside handlers and backend faults |
| C37 | A job interrupted by a crash can run again | partial | false: an interrupted job stays Running for ever, proved for every interrupted job and every continuation |
| C38 | A restart frees the processing slots | partial | false: slots of interrupted jobs are never freed |
| C39 | A failed run() can be repeated safely | partial | safe outside two crash points inside the submission, which are characterised; false there: double concurrent execution |
| C40 | Picked jobs are executed | partial | proved without failing calls; false with a failing move: the job picked before is never executed |
| C41 | Storage read errors are reported | partial | false in every state with a failing read |
| C42 | A panic in one job does not stop the others | partial | false in every state |
| C43 | Plugin run hooks | partial | false: after_run is never called in any history and before_run twice per execution; the calls before user code, for all plugins in order, are proved |
| C44 | Plugin status notifications | partial | false for new_skip_if_finished and for the order seen by plugins other than the first; proved otherwise |
| C45 | Queues of different job types do not disturb each other | proved | Any number of queues, any schedule of atomic backend calls; clock readings per thread are arbitrary. Every finite prefix and the final state. |
| C46 | Job ids are per job type | partial | False: the storage hash is shared by all job types (storage_name is unused), so a job of another type with the same id is overwritten and never runs. |
| C47 | First use of a job type is safe from several callers | partial | False in general: two callers that both find no queue make AJ panic; at most one queue per type and name always; proved for orderly callers. |
| C48 | AJ::start is idempotent | partial | False for concurrent starts and for one start with a concurrent reader; proved when the first start runs alone, and for any start made while no other call is under way. |
| C49 | Status lists agree with job status | partial | false after new_skip_if_finished over a done job, and for the Finished list after a re-run; the rest proved |
| C50 | Configuration changes apply from the next tick | proved |  |
| C51 | A job accepted by run() can run | partial | False for payloads that do not serialize or are not read back: run() answers Ok and the job is never executed, in any history, with any faults; C06 gives the positive case. |
| C52 | Millisecond conversion | partial | Exact range where it holds; for every value outside it is false (panic or wrong time). |
| C53 | #[job] passes arguments faithfully | partial | Proved for all supported functions, which are exactly those with a valid expansion; false for the others. Two functions of one name share a queue name. |
| C54 | Reads and operations on unknown ids have no effect | proved |  |
| C55 | Each tick starts the oldest due jobs | proved | For readiness that does not change during the tick (otherwise C12). |
| C56 | Payloads stay with their id | proved | With arbitrary backend faults, crash points and restarts. |
| C57 | Stored jobs are states of submitted jobs | proved | For payloads with the default retry_at, as stated; the payload need not survive serialization. |
| C58 | Retry limits and due times hold in spite of faults | proved | Retry limit for payloads with the default retry_at and submissions within their limit. |
| C59 | Time stamps are consistent | proved | Submitted jobs must themselves be consistent at submission (as Job::new makes them). |
| C60 | Worker processes sharing a queue do not execute a job twice | partial | Proved for any number of processes when their steps (one event of one process) do not overlap in time. False when they do: a job is executed twice, another is lost and blocks the queue. C90 shows what of this holds when only ticks take turns. |
| C61 | The processing limit holds for all processes of a queue together | partial | Proved when steps do not overlap in time; false otherwise. C90_limit: it is enough that ticks take turns. |
| C62 | API calls are linearizable | proved | Any backend, with crashes; one job type, first-in first-out mailboxes. |
| C63 | Waiting jobs are resumed after a restart of the process | partial | False: nothing is executed until something of this job type is submitted. Proved: exactly that, the refusal of other calls, and that the first submission starts the queue. |
| C64 | update_job takes effect at one moment | partial | Proved when the job is stored as it was read; false otherwise (a finished job is executed again and run_count is lost). |
| C65 | A submission that reports an error is not executed | partial | Exact outcome for every combination of failing calls; false when the reply of a write that took effect is lost. |
| C66 | The processing limit holds in spite of backend errors | partial | One tick spawns at most the limit, for any backend; the limit itself is false: an error of the count counts as zero. |
| C67 | A successful execution is recorded as such | partial | Exact outcome for every combination of failing calls, for the last execution of any job; false when the write of the result fails or its reply is lost. |
| C68 | A completed execution frees its slot | partial | Exact condition for the slot to be freed; false when the removal fails, and then the slot is lost until a restart with free slots or a higher limit. |
| C69 | With a fair runtime every waiting job is executed | proved | With bounded arrivals, as stated; with unbounded arrivals proved as long as no tick finds more than 20 waiting ids (C69_short_lists), otherwise false (C15). |
| C70 | A builder chain makes the job it describes | proved |  |
| C71 | Building a job never crashes the caller | partial | False: invalid cron expressions and delays beyond the range of DateTime panic; proved that nothing else does. |
| C72 | The first execution is of what was submitted | proved | For orderly histories (as C09), all continuations. |
| C73 | A delayed job is not started before its delay has passed | partial | Proved up to the storage cut to whole microseconds; false within the last microsecond. |
| C74 | A cron job is first executed at an event of its schedule | partial | Proved for schedules with a next event; false without: the job is due at once, for every such schedule. |
| C75 | A living queue has exactly one pending timer | proved |  |
| C76 | Ticks are a period apart | proved |  |
| C77 | A due job is started within one tick period | proved | For orderly histories (as C09) while the queue lives and the job is not cancelled or submitted again. |
| C78 | Response time of a due job | proved | As C77. |
| C79 | A new tick duration applies at once | partial | False: the pending timer keeps its deadline; proved that it does, whatever happens to a living queue. |
| C80 | A stored job can be read back from its text | partial | Proved for payloads nested at most 126 levels; false for deeper ones: they are acknowledged and never run. The behaviour with deeper payloads is given exactly (their serialization fails). |
| C81 | Jobs keep their payload and origin when processes overlap | proved | C81_origin for user code that does not override retry_at, as C58. C81_on_redis carries the facts about interleavings (C81 to C92) over to Redis: same tasks, executions, answers, lists and records. |
| C82 | Retry limits, due times and time stamps hold when processes overlap | proved | As C81. |
| C83 | An acknowledged submission is kept, whatever overlaps, fails or dies | proved |  |
| C84 | A tick ends, whatever other processes do | partial | False: if a second worker takes the counted ids, the loop reads the empty list for ever. Proved when no other process takes ids from the waiting list, and when ticks take turns (C84_turns_end, C84_turns_steps_end). |
| C85 | What is to run again runs again, although calls fail | partial | Exact outcome for every combination of failing calls and for every job: every execution is the last one or one of those (counters and times in range); false when the last push fails (its error is only logged), and then neither submitting nor retrying nor a restart ever runs the job again. |
| C86 | Run count and payload of a job agree | proved | For any user code given as a relation, and for code given by its methods (Exec.v). |
| C87 | A cancelled job does not run, although processes overlap | partial | False if another process is in the middle of a tick: the cancelled job runs, and another job is moved to the processing list in its place and never runs. Proved when no process is in the middle of a step; C87_not_waiting is the general reason and holds for any continuation. |
| C88 | The space that jobs take in the storage | partial | The last part is false: the lists of finished, failed and cancelled jobs are never cleared, and one id submitted again and again leaves one entry each time. The other parts are proved. |
| C89 | A waiting job is taken by one of several processes | partial | The first part is proved for bounded arrivals, as for C15, and steps that take turns. The second part is false: once the ids left behind by dead processes are as many as the largest limit, no process starts a job any more. |
| C90 | Ticks that take turns prevent double execution | proved | C90_cancel_in_tick_refuted shows that the condition on cancel_job is needed. |
| C91 | Ticks that take turns lose no job | proved | Same conditions as C90, without failing calls and deaths; with those jobs are lost (C37, C40, C89_slots_lost_refuted). |
| C92 | A due job is taken although processes overlap | partial | The last part is false, even if at most three ids are waiting: a job that arrives before a tick has turned the list gets ahead of an older one. The rest is proved. |
| C93 | The work queue refines an abstract scheduler | proved | For orderly histories (as C09); nothing is said about ticks with 2^31 or more waiting ids (C13 does) and little about counters that overflow. C93_determined shows that the scheduler leaves no choice but the readings of the clock. |
| C94 | Job types of one process do not disturb each other | partial | False in one respect: AJ is shared, so a race of two first submissions of one type kills it and first submissions of other types fail. Everything else is proved; types with one queue name cannot be used together. |
| C95 | The status of a job tells what has happened to it | partial | Proved for orderly histories; false when the second message of an update_job comes late: a job that waits for its next try can then be reported as Finished. |
| C96 | Plugins hold up only the executions that wait for them, and not for good | proved | On the in-memory backend; hooks are supposed to return or panic. |
| C97 | What is read from the storage as which job | proved | Integer fields are unbounded in the model; the payload is read by its own deserializer. |
| C98 | Redis commands that fail one by one | proved | The model of the connection: opening it can fail, each command can fail before it takes effect or lose its reply. |
| C99 | How many backend calls a step makes | proved | Counts calls of the Backend trait, not the time they take; ticks on the in-memory backend and on Redis without failures. |

## Trusted base

* The kernel of Coq 8.16.1 (its checks are all on; `vm_compute` is used in examples and witnesses), and
  the tool chain that starts it.
* Library: std++ and Coq's standard library.  Loading std++ brings `Coq.ssr.ssrunder` into the
  environment, which declares the seven constants `Under_rel`, `Under_rel_from_rel`, `Under_relE`,
  `Over_rel`, `over_rel`, `over_rel_done`, `under_rel_done` of its module `Under_rel` (standard library)
  without bodies.  No theorem here depends on them.
* There are no axioms, parameters, admitted proofs, functors or plugins in `rocq/theories`.
* The reading of the Rust code that the model expresses.  Every definition of the model cites the lines
  it stands for and states its simplifications.

`Print Assumptions` follows every property theorem; for each of the 380 theorems the answer is
"Closed under the global context":

* `PropAdrift.v`: `C112_adrift`, `C112_power_cut`, `C112_failing_read_refuted`, `C112_busy_refuted`
* `PropAny.v`: `C109_progress`, `C109_slots`, `C109_after_outage`, `C109_restart`
* `PropBack.v`: `C111_way_back`, `C111_waiting`, `C111_no_way`, `C111_exactly`
* `PropBackend.v`: `C01_inmemory_is_lists`, `C01_inmemory_is_lists_adaptive`, `C02_storage_last_write`, `C03_move_keeps_items`, `C04_redis_refuted`, `C04_redis_move_refuted`, `C04_redis_partial`, `C04_work_queue_same_on_redis`, `C04_lrange`, `C04_lrange_from_end`, `C05_keys_distinct`, `C05_keys_not_storage`
* `PropBuilder.v`: `C70_builder`, `C70_builder_context`, `C71_builder_panics_partial`, `C72_first_execution`, `C73_delay_partial`, `C74_first_slot_partial`, `C74_no_event_due_at_once`, `C71_builder_panics_refuted`, `C73_delay_refuted`, `C74_first_slot_refuted`
* `PropCases.v`: `C65_submission_partial`, `C66_tick_bound_partial`, `C67_C68_completion_partial`, `C68_slots_lost`, `C65_error_not_executed_refuted`, `C66_limit_refuted`, `C67_success_is_finished_refuted`, `C68_slot_freed_refuted`
* `PropClient.v`: `C62_history`, `C62_no_other_steps`, `C62_answers`, `C62_real_time`, `C62_no_deadlock`, `C63_refused`, `C63_idle_until_submission`, `C63_first_submission`, `C63_first_just_run`, `C62_aj_dies_only`, `C64_update_atomic_partial`, `C63_resumes_refuted`, `C64_update_atomic_refuted`
* `PropCommute.v`: `C102_commute`, `C102_tasks`
* `PropCost.v`: `C99_tick`, `C99_tick_bounds`, `C99_start`, `C99_others`, `C99_submit`, `C99_cancel`, `C99_retry`, `C99_end`, `C99_redis`
* `PropCount.v`: `C86_payload_count`, `C86_methods`
* `PropCut.v`: `C110_prefix`, `C110_start`, `C110_waiting_kept`, `C110_limbo`, `C110_failure_first`
* `PropDrain.v`: `C105_rest`, `C105_come_due`, `C105_executions`
* `PropEnd.v`: `C103_answered`, `C103_executed`, `C103_just_run`
* `PropEver.v`: `C106_again_partial`, `C106_debug_bound`, `C106_debug_refuted`
* `PropFault.v`: `fault_free_backend`, `C36_acknowledged_not_lost`, `C37_interrupted_stays`, `C38_slots_never_freed`, `C39_crash_points`, `C39_repeat_duplicates`, `C40_picked_have_tasks_partial`, `C40_orphan_stays`, `C41_errors_swallowed`, `C41_run_ignores_errors`, `C42_panic_stops_queue`, `C37_interrupted_refuted`, `C38_restart_frees_slots_refuted`, `C39_repeat_refuted`, `C40_picked_executed_refuted`, `C41_read_errors_refuted`, `C42_panic_refuted`
* `PropFleetEver.v`: `C117_fleet_short`, `C117_again`
* `PropFleetFair.v`: `C107_fleet_progress`, `C107_slots_free_again`, `C107_tasks_end`
* `PropFleetLive.v`: `C89_taken_partial`, `C89_slots_lost_refuted`
* `PropFleetRedis.v`: `C119_same_view`, `C119_no_overlap`, `C119_limit`, `C119_status`, `C119_progress`, `C119_rest`, `C119_again`
* `PropFleetRest.v`: `C118_rest`, `C118_come_due`, `C118_executions`
* `PropFrame.v`: `C101_step`, `C101_tasks`, `C101_quiet`
* `PropFrontRedis.v`: `C120_callers`, `C120_timers`, `C120_executed`, `C120_response_time`
* `PropHist.v`: `orderly_plain`, `C07_one_pending_execution`, `C09_no_overlap_partial`, `C10_limit`, `C16_legal_status_changes`, `C17_run_count`, `C49_lists_agree_partial`, `C49_lists_sound_partial`, `C09_stale_update_refuted`, `C49_queued_but_not_waiting_refuted`, `C49_finished_list_refuted`
* `PropKeys.v`: `C113_frame`, `C113_blind`, `C113_any`, `C113_progress`, `C113_way_back`, `C113_no_way`, `C113_exactly`, `C115_noise`, `C114_kept`, `C114_refused`, `C114_jammed`
* `PropLive.v`: `C69_fair_progress`, `C69_slots_free_again`, `C69_tasks_end`
* `PropLocked.v`: `C90_no_overlap`, `C90_listed_once`, `C90_limit`, `C91_processing_has_task`, `C91_at_rest`, `C91_not_lost`, `C84_turns_end`, `C84_turns_steps_end`, `C92_waiting_partial`, `C92_taken_partial`, `C90_cancel_in_tick_refuted`, `C92_starvation_refuted`
* `PropLong.v`: `C13_any_length`, `C13_panics`, `C12_one_batch`, `C13_no_panic_refuted`, `C12_long_list_refuted`
* `PropLost.v`: `C87_not_waiting`, `C87_cancel_partial`, `C87_cancel_overlap_refuted`
* `PropMisc.v`: `C53_faithful_partial`, `C53_exactly_supported`, `C53_refuted`, `C53_queue_name_refuted`, `C52_ms_partial`, `C52_ms_refuted`
* `PropMulti.v`: `C45_non_interference`, `C45_same_as_alone`, `C45_on_redis`, `C46_refuted`, `C46_overwritten_refuted`, `C46_lost_refuted`
* `PropNoise.v`: `C116_alone`, `C116_others`
* `PropOffice.v`: `C94_as_alone_partial`, `C94_aj_dies_only`, `C94_history`, `C94_no_other_steps`, `C94_answers`, `C94_real_time`, `C94_no_deadlock`, `C94_other_type_refuted`, `C94_same_name_refuted`
* `PropOfficeRedis.v`: `C122_same_view`, `C122_history`, `C122_answers`, `C122_real_time`, `C122_aj_dies_only`, `C122_no_deadlock`
* `PropOrder.v`: `C55_tick_order`
* `PropOutput.v`: `C104_output`
* `PropPick.v`: `C10_tick_at_limit`, `C12_work_conserving`, `C13_picking_terminates`, `C14_fifo_partial`, `C15_no_starvation_partial`, `C50_config`, `C50_next_ticks`, `C14_fifo_refuted`, `C15_starvation_refuted`
* `PropPlugin.v`: `C43_before_run`, `C43_own_message`, `C43_messages`, `C43_after_run_refuted`, `C43_exactly_once_refuted`, `C44_notify_after_write`, `C44_notes_are_status_path`, `C44_first_plugin`, `C44_first_plugin_calls`, `C44_first_plugin_order`, `C44_messages_of_queue`, `C44_every_change_notified_refuted`, `C44_order_refuted`
* `PropPluginRedis.v`: `C121_same_view`, `C121_before_run`, `C121_own_message`, `C121_messages`, `C121_never_after_run`, `C121_messages_of_queue`, `C121_first_plugin_calls`, `C121_who_waits`, `C121_others_go`, `C121_answered`
* `PropRace.v`: `C81_payload`, `C81_never_runs`, `C81_origin`, `C82_retry_limit`, `C82_due`, `C82_stamps`, `C83_submission_kept`, `C81_on_redis`, `C81_one_process`, `C81_only_one_process`, `C81_taking_turns`, `C84_bound_immaterial`, `C84_tick_ends_partial`, `C84_steps_end_partial`, `C84_tick_ends_refuted`
* `PropRange.v`: `C100_ranges`, `C100_redis`
* `PropRead.v`: `C97_reads`, `C97_context`, `C97_more`
* `PropRedisLive.v`: `C108_same_view`, `C108_progress`, `C108_rest`, `C108_again`
* `PropRegistry.v`: `C47_one_queue`, `C47_orderly_partial`, `C47_race_refuted`, `C47_dead_for_ever`, `C47_first_use_refuted`, `C47_waits_for_message`, `C47_calls_end`, `C47_end_is_final`, `C48_returned_started`, `C48_first_alone_partial`, `C48_two_starts_refuted`, `C48_reader_refuted`, `C48_writer_refuted`, `C48_calls_end`, `C48_lock`, `C48_quiet_start_partial`, `C48_start_refuted`
* `PropSched.v`: `C93_step`, `C93_history`, `C93_on_redis`, `C93_determined`, `C93_processing`
* `PropShort.v`: `C15_short_lists`, `C69_short_lists`
* `PropSoft.v`: `C123_no_overlap`, `C123_tasks`, `C123_waiting`, `C123_limit`, `C123_redis`, `C123_redis_limit`, `C123_cancel_refuted`, `C123_cancel_points`, `C123_rerun_duplicates`, `C123_submission_refuted`
* `PropSpace.v`: `C88_keys`, `C88_entries`, `C88_records_stay`, `C88_bounded_by_ids_refuted`
* `PropStray.v`: `C85_again_partial`, `C85_every_end`, `C67_C68_end_partial`, `C85_stray_never_runs`, `C85_again_refuted`
* `PropSubmit.v`: `C06_new_job_queued_once`, `C08_done_job_requeued`, `C08_exactly_one_pending`, `C08_skip_if_finished`, `C18_canceled_job_does_not_run`, `C19_cancel_partial`, `C20_update_queued`, `C21_C22_C23_update_partial`, `C24_retry_done`, `C24_retry_not_done`, `C24_retry_pending_once`, `C35_round_trip`, `C35_round_trip_exact`, `C54_get_is_pure`, `C54_unknown_id`, `C19_cancel_refuted`, `C21_update_running_refuted`, `C22_update_done_refuted`, `C23_update_context_refuted`, `C51_unserializable_refuted`
* `PropText.v`: `C80_text_round_trip`, `C80_writes_json`, `C80_reads_json`, `C80_one_line`, `C80_plain_text`, `C80_text_backend_partial`, `C80_text_backend_limited`, `C80_any_backend`, `C80_deep_never_runs`, `C80_deep_refuted`
* `PropTime.v`: `C11_not_early_partial`, `C26_retry_bound`, `C25_manual_retry_partial`, `C27_interval`, `C28_backoff_partial`, `C29_backoff_safe_partial`, `C29_debug_dies`, `C29_release_no_delay`, `C30_max_repeat`, `C31_slots_partial`, `C32_end_at_partial`, `C33_expired_stays`, `C34_schedule_lost`, `C11_not_early_refuted`, `C25_manual_retry_refuted`, `C28_backoff_refuted`, `C29_backoff_safe_refuted`, `C31_slots_refuted`, `C32_end_at_refuted`, `C33_expired_refuted`, `C34_schedule_refuted`
* `PropTimer.v`: `C75_one_timer`, `C76_ticks_spaced`, `C79_no_tick_before_partial`, `C77_tick_in_window`, `C77_starts_within_period`, `C78_response_time`, `C79_new_period_at_once_refuted`
* `PropValue.v`: `C56_payload`, `C51_never_runs`, `C57_origin`, `C58_retry_limit`, `C58_due`, `C59_stamps`
* `PropWait.v`: `C96_who_waits`, `C96_others_go`, `C96_no_deadlock`, `C96_no_livelock`, `C96_answered`
* `PropWhy.v`: `C95_why_partial`, `C95_over_partial`, `C95_running_partial`, `C95_over_refuted`
* `PropWire.v`: `C98_failing_commands`, `C98_move`
* `PropWorkers.v`: `C60_no_overlap_partial`, `C60_status_partial`, `C60_run_count_partial`, `C61_limit_partial`, `C60_executed_twice_refuted`, `C60_lost_refuted`, `C61_refuted`

## What is modelled

| code | where | remarks |
|---|---|---|
| `backend/mem.rs` | `Backend.v` | all calls; one call is atomic (one mutex) |
| `backend/redis.rs` | `Backend.v`, `Wire.v` | all calls as sequences of Redis commands over a model of lists and hashes; in `Wire.v` each command may fail |
| `backend/types.rs` | `Queue.v` | read errors become `None`, as in the code |
| `job/mod.rs`, `job_context.rs`, `retry.rs`, `executable.rs` | `Types.v`, `Queue.v`, `Json.v`, `Text.v` | serde as JSON values, JSON text in `Text.v` |
| `queue.rs` | `Queue.v`, `Sys.v`, `Client.v` | all of it but logging |
| `aj.rs` | `Client.v`, `Office.v`, `OfficeRedis.v`, `Registry.v`, `Spec.v` (`update_job`) | |
| `plugin/` | `Plugin.v`, `PluginRedis.v` | |
| `util/mod.rs` | `Types.v`, `Registry.v` | millisecond conversions |
| `lib.rs` (registries) | `Registry.v` | |
| `aj_macro` | `Macro.v` | |

## What is not modelled, and simplifications

* **actix, tokio, threads.**  An actor handles one message or task poll at a time.  Which comes next is
  arbitrary, so every order that the runtime may choose is covered, and more.  Mailbox capacity (actix
  limits `try_send`, `do_send` and `send` wait or ignore it) and the `System` that `AJ::start` creates and drops
  when it finds no runtime are left out.
* **The timer.**  In `Sys.v` a tick may come at any time (`EvTick`).  `Timer.v` adds real time: when the
  queue's timer is armed and fires, with the runtime late by an arbitrary amount, and handlers that take
  any time.  The time of the timers is not related to the readings of the clock (actix uses a monotonic
  clock, `get_now` the wall clock).
  Liveness theorems say that a continuation exists, or speak of every history with enough ticks.
* **JSON text.**  Most files work on JSON values.  `Text.v` has serde_json's writer and reader for them, with
  the reader's nesting limit of 128, and the in-memory backend with the strings it holds; C80 relates the two
  for all histories.  The reader takes exactly the JSON grammar of `SpecText.v` (`denotes`) up to that limit.  Not in the
  grammar: text that is never written (white space, fractions, other escapes), integer ranges (C100: they hold in all histories), and that unknown fields are skipped without the nesting limit.
  JSON numbers are integers: payloads with `f64` fields (and the round trip of their text) are outside the model.
  User payloads: any type with a partial encoding (`Serde`), a
  round trip is required only where `SerdeOk` is stated.
* **The `cron` crate** is an arbitrary function `expression -> option (time -> option time)`; theorems that need
  more (for example, that the next slot lies in the future) state it as a hypothesis.
* **chrono**: times and durations are exact integers; a sum outside the range of `DateTime` panics (`dt_add`).  The product of
  a duration of more than 270 years with a power of two (exponential backoff) may overflow inside chrono before; here it
  is the sum that panics.
* **`convert_case`** (`Macro.v`) is an arbitrary function on names; Rust's type checking of the generated code is
  modelled as far as number, order and types of fields and arguments.
* **Redis** itself: single commands are atomic and succeed or fail as `faulty_h` and `wire_h` say; no expiry, no other
  users of the queue's own keys (any other keys: `PropKeys.v`), no connection pool (r2d2), no transaction (the code uses none).
* **Logging**, memory safety, stack depth, allocation failure.
* **User code** runs from one poll to a later one; what it does to the backend itself is not modelled, except
  through API calls (events).  Suspension inside `is_failed_output` and `retry_at` is merged into the poll after them.
* **Crashes** (`EvCrashIn e n`) happen between effects.  In `Plugin.v` messages sent in the very step that
  crashes are lost.
* **`Registry.v`**: the handler of the AJ actor's register message is one step.
* **`Workers.v`, `WorkersRedis.v`**: one event of a process is atomic.  `Race.v` takes single backend calls as atomic; there the
  steps of processes overlap.  Its processes share one count of clock readings, but have clocks of their own.
* **`Office.v`**: on Redis `OfficeRedis.v`; every queue's thread reads a clock of its own; all calls of one type use
  the type's queue name, as the macro generates it; a message that is being handled stays at the head of
  the mailbox until the step ends; a crash of the process stops each queue between two effects.
* **`Client.v`**: one job type (several: `Office.v`); mailboxes are first-in first-out; the time between a message's
  answer and the caller's next step is arbitrary.

## Tests of the model

`RepoTests.v` runs the repository's unit tests (backends, retry, job, util, AJ::start) and the programs in `aj/examples`
on the model, with the results that the tests assert and the examples describe.

## Tests of the theorems

`seeded/LOG.jsonl` records edits of the model (each a plausible wrong program), the property each should
break, and the theorems whose proofs failed.  A failing proof is found by recompiling a scratch copy with every
failing proof replaced by `Admitted` and asking `Print Assumptions` which theorems depend on one.  An edit that
breaks nothing is either equivalent (noted so) or led to a new or stronger theorem, listed as tightened.
