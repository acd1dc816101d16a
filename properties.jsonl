{"id": "C01", "title": "In-memory queues behave as double-ended lists", "statement": "For any sequence of queue_push / queue_move / queue_remove / queue_get / queue_count calls on InMemory, every answer equals the answer of a plain map from queue name to list: push inserts at the front, get returns the first n items counted from the chosen end, remove deletes every equal item and keeps the order of the others, count is the length, and no call changes a queue it does not name.", "quantifier": "every finite sequence of backend calls with arbitrary queue names, items, counts and directions", "why_tests_cant": "the unit tests try one or two calls on one or two items; the claim is about every history", "anchors": ["aj_core/src/backend/mem.rs:InMemory", "aj_core/src/backend/mem.rs:queue_move", "aj_core/src/backend/mem.rs:queue_get"]}
{"id": "C02", "title": "Storage reads return the last write", "statement": "After any history of backend calls, storage_get(hash,key) returns the value of the most recent storage_upsert(hash,key,_) in that history, and None if there was none; queue calls never change it.", "quantifier": "every history of backend calls, every hash and key", "why_tests_cant": "depends on the whole history and on all other keys", "anchors": ["aj_core/src/backend/mem.rs:storage_upsert", "aj_core/src/backend/mem.rs:storage_get"]}
{"id": "C03", "title": "Moving items never loses or duplicates one", "statement": "queue_move keeps the multiset union of all queues unchanged for every pair of names (equal or not), count and pair of directions, moves min(count, length) items from the chosen end, and returns exactly the moved items in the order they were taken.", "quantifier": "every store, every pair of queue names (also equal), every count and direction pair", "why_tests_cant": "needs all sizes and the from = to case", "anchors": ["aj_core/src/backend/mem.rs:queue_move"]}
{"id": "C04", "title": "Redis and InMemory backends are interchangeable", "statement": "For every sequence of backend calls the Redis backend and the InMemory backend return the same answers, so a program may swap them.", "quantifier": "every sequence of backend calls", "why_tests_cant": "the Redis tests are #[ignore]d and compare single calls", "anchors": ["aj_core/src/backend/redis.rs:lmove", "aj_core/src/backend/redis.rs:lrange", "aj_core/src/backend/mem.rs:queue_get", "aj_core/src/backend/mem.rs:queue_move"]}
{"id": "C05", "title": "Queue keys never collide", "statement": "Two (queue name, status) pairs that differ never share a backend key, and no queue key equals the storage hash key, whatever the queue names are.", "quantifier": "all queue names (arbitrary strings) and all statuses", "why_tests_cant": "ranges over all strings", "anchors": ["aj_core/src/queue.rs:format_queue_name", "aj_core/src/backend/types.rs:STORAGE_HASH"]}
{"id": "C06", "title": "run() on a new id queues the job exactly once", "statement": "If no job with this id is stored, submitting it succeeds, afterwards get_job returns it with the submitted data and status Queued, and the id occurs exactly once more in the waiting queue; no other job is changed.", "quantifier": "every backend state, every job, every enqueue configuration", "why_tests_cant": "all states", "anchors": ["aj_core/src/queue.rs:run_with_config", "aj_core/src/queue.rs:enqueue", "aj_core/src/job/mod.rs:enqueue"]}
{"id": "C07", "title": "One pending execution per id", "statement": "In every history of API calls, ticks and task completions starting from an empty backend, in which submitted jobs carry status Queued, a job id is at any time at most once in waiting plus processing queues together, so submitting the same id again while it is queued or running never creates a second pending execution.", "quantifier": "all finite histories of API calls, ticks, task steps, user panics and restarts, all payload behaviours", "why_tests_cant": "schedule dependent", "anchors": ["aj_core/src/queue.rs:run_with_config", "aj_core/src/queue.rs:re_enqueue", "aj_core/src/queue.rs:try_pick_specific_ready_jobs"]}
{"id": "C08", "title": "Re-submission of a completed job", "statement": "Submitting a job whose id is done (Finished, Failed, Canceled) with re_run queues exactly one new execution with the new data; with new_skip_if_finished it queues none.", "quantifier": "every backend state and done job", "why_tests_cant": "all states", "anchors": ["aj_core/src/queue.rs:run_with_config", "aj_core/src/queue.rs:EnqueueConfig"]}
{"id": "C09", "title": "A job id never executes twice at the same time", "statement": "In every reachable state the tasks in progress have pairwise different job ids. Must also survive stale update_job snapshots and partial backend failures.", "quantifier": "all histories", "why_tests_cant": "interleavings of ticks, completions and client calls", "anchors": ["aj_core/src/queue.rs:process_jobs", "aj_core/src/queue.rs:execute_job"]}
{"id": "C10", "title": "The processing limit is never exceeded", "statement": "The number of jobs executing at the same time never exceeds the largest max_processing_jobs configured so far, and a tick never starts a job when the current limit is already reached.", "quantifier": "all histories, all limits, also limits changed at run time", "why_tests_cant": "depends on every interleaving of ticks, completions and configuration changes", "anchors": ["aj_core/src/queue.rs:pick_jobs_to_process", "aj_core/src/queue.rs:UpdateWorkQueue"]}
{"id": "C11", "title": "A scheduled job never starts early", "statement": "A job submitted with schedule_at(t) or delay(d) is never started at a clock reading earlier than t.", "quantifier": "all histories, all clock behaviours (also non-monotone), all t", "why_tests_cant": "timing and persistence rounding", "anchors": ["aj_core/src/job/mod.rs:is_ready", "aj_core/src/job/mod.rs:delay", "aj_core/src/job/job_context.rs:ScheduledAt"]}
{"id": "C12", "title": "Ready jobs are picked whenever there is capacity", "statement": "After a tick either the processing limit is reached or no job remains in the waiting queue that was ready during the whole tick; scanning leaves no queued job behind, for any queue length.", "quantifier": "every queue content and length (below 2^31), every limit, every clock", "why_tests_cant": "the scan is a batched rotating loop; correctness depends on sizes relative to the batch size of 20", "anchors": ["aj_core/src/queue.rs:try_pick_specific_ready_jobs"]}
{"id": "C13", "title": "Picking terminates", "statement": "The picking loop of a tick terminates for every content of the waiting queue.", "quantifier": "every queue content (length below 2^31)", "why_tests_cant": "termination for all sizes", "anchors": ["aj_core/src/queue.rs:try_pick_specific_ready_jobs"]}
{"id": "C14", "title": "Jobs start in submission order (FIFO)", "statement": "Among jobs that are ready, the one submitted first is started first.", "quantifier": "all queue lengths and limits", "why_tests_cant": "needs more than 20 waiting jobs and fewer free slots than the batch", "anchors": ["aj_core/src/queue.rs:try_pick_specific_ready_jobs"]}
{"id": "C15", "title": "No starvation", "statement": "A ready job waiting in the queue is eventually started if slots keep becoming free: without new submissions within at most as many free-slot ticks as there are waiting jobs, and also under a steady arrival of new jobs.", "quantifier": "all queue contents and arrival patterns, unbounded number of ticks", "why_tests_cant": "a liveness property over unboundedly many ticks", "anchors": ["aj_core/src/queue.rs:try_pick_specific_ready_jobs"]}
{"id": "C16", "title": "Only legal status changes", "statement": "The status get_job reports for an id changes only along: absent->Queued, Queued->Running, Queued->Canceled, Running->Queued, Running->Finished, Running->Failed, done->Queued.", "quantifier": "all histories, all ids", "why_tests_cant": "every interleaving", "anchors": ["aj_core/src/job/mod.rs:enqueue", "aj_core/src/job/mod.rs:process", "aj_core/src/job/mod.rs:finish", "aj_core/src/job/mod.rs:cancel", "aj_core/src/job/mod.rs:fail"]}
{"id": "C17", "title": "run_count counts executions", "statement": "The run_count stored for a job equals the number of completed executions of that id since it was (last) submitted, as long as it is not re-submitted or updated with a new context.", "quantifier": "all histories", "why_tests_cant": "history property", "anchors": ["aj_core/src/job/mod.rs:execute"]}
{"id": "C18", "title": "A canceled job does not run", "statement": "After cancel_job(id) took effect on a queued job, the job is not executed in any continuation that does not submit, update or retry that id again.", "quantifier": "all histories and all continuations", "why_tests_cant": "unbounded future", "anchors": ["aj_core/src/queue.rs:cancel_job"]}
{"id": "C19", "title": "cancel_job reports the truth", "statement": "cancel_job returning Ok means the job will not run; on jobs that are not queued it changes nothing.", "quantifier": "all states and ids", "why_tests_cant": "all states", "anchors": ["aj_core/src/queue.rs:cancel_job", "aj_core/src/aj.rs:cancel_job"]}
{"id": "C20", "title": "Updating a queued job takes effect exactly once", "statement": "update_job(id, data, None) on a queued job keeps its id, schedule and queue position, and the next execution of the id uses the new data.", "quantifier": "all states with the job queued, all data", "why_tests_cant": "all states", "anchors": ["aj_core/src/aj.rs:update_job", "aj_core/src/queue.rs:run_with_config"]}
{"id": "C21", "title": "update_job reports the truth", "statement": "If update_job returns Ok then the job data stored is the new data.", "quantifier": "all states, including while the job is running", "why_tests_cant": "race with execution", "anchors": ["aj_core/src/aj.rs:update_job", "aj_core/src/queue.rs:run_with_config"]}
{"id": "C22", "title": "Updating does not start executions", "statement": "update_job changes data only: it never makes a job run that would otherwise not run again (a Finished, Failed or Canceled job stays that way).", "quantifier": "all states and interleavings of the two messages update_job sends", "why_tests_cant": "needs done jobs and races", "anchors": ["aj_core/src/aj.rs:update_job", "aj_core/src/aj.rs:add_job"]}
{"id": "C23", "title": "Updating with a context keeps the job's identity", "statement": "update_job(id, data, Some(context)) updates the job id and no other job.", "quantifier": "all contexts", "why_tests_cant": "all contexts", "anchors": ["aj_core/src/aj.rs:update_job"]}
{"id": "C24", "title": "retry_job", "statement": "retry_job(id) returns true exactly if the job was done; then it is Queued again exactly once with unchanged data and removed from its done list; otherwise nothing changes.", "quantifier": "all states and ids", "why_tests_cant": "all states", "anchors": ["aj_core/src/queue.rs:retry_job", "aj_core/src/queue.rs:re_enqueue"]}
{"id": "C25", "title": "Manual retry restores the automatic retries", "statement": "A job re-queued with retry_job is again retried automatically up to max_retries times.", "quantifier": "all retry configurations", "why_tests_cant": "history", "anchors": ["aj_core/src/queue.rs:retry_job", "aj_core/src/job/retry.rs:should_retry"]}
{"id": "C26", "title": "Automatic retry bound", "statement": "A non-cron job with Retry(max_retries = n) whose every execution fails is executed exactly n+1 times (n >= 0), then is Failed with run_count n+1; in every history it is never executed more often than that.", "quantifier": "all n, all histories and clocks", "why_tests_cant": "unbounded n and schedules", "anchors": ["aj_core/src/job/retry.rs:should_retry", "aj_core/src/job/retry.rs:retry_at", "aj_core/src/job/executable.rs:retry_at", "aj_core/src/queue.rs:execute_job"]}
{"id": "C27", "title": "Interval retry spacing", "statement": "With interval strategy d, a failed execution completed at clock reading t is not started again at a clock reading at or before t+d (up to storage rounding).", "quantifier": "all d, histories and clocks", "why_tests_cant": "timing", "anchors": ["aj_core/src/job/retry.rs:retry_at"]}
{"id": "C28", "title": "Exponential backoff sequence", "statement": "With initial backoff d the k-th retry is delayed by d*2^(k-1): d, 2d, 4d, ... as documented.", "quantifier": "all k, d", "why_tests_cant": "all k", "anchors": ["aj_core/src/job/retry.rs:RetryStrategy", "aj_core/src/job/retry.rs:retry_at"]}
{"id": "C29", "title": "Exponential backoff is safe for every retry count", "statement": "Computing the next retry time never panics and never gives a time in the past, for unlimited retries (max_retries None).", "quantifier": "all retry counts up to i32::MAX, both overflow-check profiles", "why_tests_cant": "needs more than 30 retries", "anchors": ["aj_core/src/job/retry.rs:retry_at"]}
{"id": "C30", "title": "Cron max_repeat", "statement": "A cron job with max_repeat n (and a schedule that always has a next event, no retry) is executed at most n times, and exactly n times if it is run until it is no longer ready.", "quantifier": "all n, schedules, histories", "why_tests_cant": "unbounded", "anchors": ["aj_core/src/job/mod.rs:is_ready", "aj_core/src/job/mod.rs:next_tick"]}
{"id": "C31", "title": "One execution per cron slot", "statement": "A cron job runs at most once per event of its schedule, never before the event, and successive slots strictly increase.", "quantifier": "all schedules (including finite ones), all clocks", "why_tests_cant": "needs schedules that run out of events", "anchors": ["aj_core/src/job/mod.rs:next_tick", "aj_core/src/job/job_context.rs:new_cron"]}
{"id": "C32", "title": "Cron end_at", "statement": "A cron job with end_at e is never started at a clock reading after e (up to storage rounding).", "quantifier": "all schedules, clocks and histories", "why_tests_cant": "timing", "anchors": ["aj_core/src/job/mod.rs:is_ready"]}
{"id": "C33", "title": "Expired cron jobs complete", "statement": "A cron job that reached max_repeat or end_at becomes Finished (or Failed) and leaves the waiting queue.", "quantifier": "all histories", "why_tests_cant": "liveness", "anchors": ["aj_core/src/job/mod.rs:next_tick", "aj_core/src/queue.rs:execute_job"]}
{"id": "C34", "title": "A cron job keeps its schedule after a failure", "statement": "A cron job with a retry policy continues on its cron schedule after a failed execution was retried.", "quantifier": "all histories", "why_tests_cant": "history", "anchors": ["aj_core/src/queue.rs:execute_job"]}
{"id": "C35", "title": "Jobs survive serialization", "statement": "Reading a job back from storage gives the submitted job: same id, data, type, status, retry state and timestamps (times up to microsecond truncation).", "quantifier": "all jobs", "why_tests_cant": "all values", "anchors": ["aj_core/src/backend/types.rs:upsert_to_storage", "aj_core/src/backend/types.rs:get_from_storage", "aj_core/src/job/job_context.rs:JobContext"]}
{"id": "C36", "title": "An acknowledged job is not lost before its first run", "statement": "If run() returned Ok, then whatever crashes at whatever backend call happen later, the job is still waiting or processing or its user code has been started at least once, unless it is canceled.", "quantifier": "all histories, all crash points inside handlers, all backend faults", "why_tests_cant": "every crash point", "anchors": ["aj_core/src/queue.rs:enqueue", "aj_core/src/queue.rs:try_pick_specific_ready_jobs"]}
{"id": "C37", "title": "A job interrupted by a crash can run again", "statement": "A job that was executing when the process died is executed again after a restart, or can at least be re-run, canceled or retried through the API.", "quantifier": "all crash points and all later histories", "why_tests_cant": "crash points, unbounded future", "anchors": ["aj_core/src/queue.rs:start_with_name", "aj_core/src/queue.rs:get_processing_job_ids", "aj_core/src/queue.rs:retry_job", "aj_core/src/queue.rs:cancel_job"]}
{"id": "C38", "title": "A restart frees the processing slots", "statement": "After a crash and restart the queue again processes up to max_processing_jobs jobs.", "quantifier": "all crash histories", "why_tests_cant": "crash points", "anchors": ["aj_core/src/queue.rs:pick_jobs_to_process"]}
{"id": "C39", "title": "A failed run() can be repeated safely", "statement": "If run() returned an error because of the backend, or the process crashed inside it, submitting the same job again leads to a single execution.", "quantifier": "all failure points inside the submission", "why_tests_cant": "failure injection at each backend call", "anchors": ["aj_core/src/queue.rs:enqueue", "aj_core/src/queue.rs:run_with_config"]}
{"id": "C40", "title": "Picked jobs are executed", "statement": "Every job moved to the processing queue is executed, also when a backend call fails during the tick.", "quantifier": "all failure points inside a tick", "why_tests_cant": "failure injection", "anchors": ["aj_core/src/queue.rs:process_jobs", "aj_core/src/queue.rs:try_pick_specific_ready_jobs"]}
{"id": "C41", "title": "Storage read errors are reported", "statement": "If the backend cannot be read, cancel_job / run / retry_job report an error instead of acting as if the job did not exist.", "quantifier": "all failure points", "why_tests_cant": "failure injection", "anchors": ["aj_core/src/backend/types.rs:get_from_storage"]}
{"id": "C42", "title": "A panic in one job does not stop the others", "statement": "If user code of one execution panics, other queued jobs of that type are still executed and the API still answers.", "quantifier": "all histories", "why_tests_cant": "crash histories", "anchors": ["aj_core/src/queue.rs:execute_job_task"]}
{"id": "C43", "title": "Plugin run hooks", "statement": "For every execution each registered plugin gets before_run(id) before the user code and after_run(id) after it, exactly once each, in registration order.", "quantifier": "all histories, all plugin lists", "why_tests_cant": "all histories", "anchors": ["aj_core/src/plugin/mod.rs:before", "aj_core/src/plugin/mod.rs:after", "aj_core/src/plugin/mod.rs:RunHook"]}
{"id": "C44", "title": "Plugin status notifications", "statement": "Every status transition persisted by the queue produces exactly one change_status notification with that id and status, in order, and there are no others.", "quantifier": "all histories", "why_tests_cant": "all histories", "anchors": ["aj_core/src/job/mod.rs:enqueue", "aj_core/src/plugin/mod.rs:change_status"]}
{"id": "C45", "title": "Queues of different job types do not disturb each other", "statement": "For two queues with different names and disjoint job ids running on their own threads, every interleaving of their backend calls gives each queue the same answers and the same final jobs and lists as if it ran alone.", "quantifier": "all programs of the two queues, all interleavings at backend-call granularity", "why_tests_cant": "thread interleavings", "anchors": ["aj_core/src/queue.rs:WorkQueue", "aj_core/src/backend/types.rs:STORAGE_HASH", "aj_core/src/queue.rs:storage_name"]}
{"id": "C46", "title": "Job ids are per job type", "statement": "Jobs of different types may use the same custom id without affecting each other.", "quantifier": "all pairs of job types and ids", "why_tests_cant": "needs two types", "anchors": ["aj_core/src/backend/types.rs:STORAGE_HASH", "aj_core/src/queue.rs:storage_name", "aj_core/src/job/mod.rs:set_id"]}
{"id": "C47", "title": "First use of a job type is safe from several callers", "statement": "Any number of concurrent run()/just_run() calls, of any job types, register each job type once and all succeed.", "quantifier": "all interleavings of callers", "why_tests_cant": "race", "anchors": ["aj_core/src/aj.rs:enqueue_job", "aj_core/src/aj.rs:register", "aj_core/src/aj.rs:JustRunJob"]}
{"id": "C48", "title": "AJ::start is idempotent", "statement": "However often and from however many threads AJ::start is called, all calls return the address of the same running AJ and none panics.", "quantifier": "all interleavings", "why_tests_cant": "race", "anchors": ["aj_core/src/aj.rs:start", "aj_core/src/aj.rs:register_addr", "aj_core/src/aj.rs:get_aj_address"]}
{"id": "C49", "title": "Status lists agree with job status", "statement": "In every reachable state an id is in the waiting list iff its status is Queued, in the processing list iff Running, in the Finished/Failed list iff Finished/Failed.", "quantifier": "all histories", "why_tests_cant": "all histories", "anchors": ["aj_core/src/queue.rs:mark_job_is_finished", "aj_core/src/queue.rs:mark_job_is_failed", "aj_core/src/queue.rs:re_enqueue", "aj_core/src/queue.rs:enqueue"]}
{"id": "C50", "title": "Configuration changes apply from the next tick", "statement": "After update_work_queue(c) every later tick uses c.max_processing_jobs; jobs already running are not affected; with limit 0 nothing is started.", "quantifier": "all histories", "why_tests_cant": "histories", "anchors": ["aj_core/src/queue.rs:UpdateWorkQueue"]}
{"id": "C51", "title": "A job accepted by run() can run", "statement": "If run() returned Ok for a new job, the job can be executed (its stored form can be read back).", "quantifier": "all payload types and values", "why_tests_cant": "all serializers", "anchors": ["aj_core/src/backend/types.rs:upsert_to_storage"]}
{"id": "C52", "title": "Millisecond conversion", "statement": "get_ms_as_datetime is inverse to timestamp_millis for every i64 millisecond value.", "quantifier": "all i64 values", "why_tests_cant": "2^64 values", "anchors": ["aj_core/src/util/mod.rs:get_ms_as_datetime"]}
{"id": "C53", "title": "#[job] passes arguments faithfully", "statement": "For every function accepted by #[job], run(args) enqueues a job whose execution calls the function with exactly these arguments in order, under a queue name determined by the function, and the generated code is syntactically valid.", "quantifier": "all function signatures", "why_tests_cant": "all signatures", "anchors": ["aj_macro/src/lib.rs:job", "aj_macro/src/lib.rs:background_job_derive"]}
{"id": "C54", "title": "Reads and operations on unknown ids have no effect", "statement": "get_job never changes anything; cancel_job, retry_job and update_job on an id that was never submitted change nothing and never create a job.", "quantifier": "all states and ids", "why_tests_cant": "all states", "anchors": ["aj_core/src/queue.rs:get_job", "aj_core/src/queue.rs:cancel_job", "aj_core/src/queue.rs:retry_job", "aj_core/src/aj.rs:update_job"]}
{"id": "C55", "title": "Each tick starts the oldest due jobs", "statement": "A tick starts exactly the free-slot-many oldest due ids of the waiting list, oldest first, for waiting lists of any length; the ids that stay keep their order up to a rotation.", "quantifier": "all histories, all waiting list lengths up to 2^31-1, all limits", "why_tests_cant": "lengths across the batch size 20 and all mixes of due and not due jobs", "anchors": ["aj_core/src/queue.rs:try_pick_specific_ready_jobs", "aj_core/src/queue.rs:pick_jobs_to_process"]}
{"id": "C56", "title": "Payloads stay with their id", "statement": "Whatever backend calls fail (before or after taking effect) and wherever the process dies and restarts: the job stored under an id carries that id, and its payload, and the payload passed to each execution, is one that was submitted for this id or produced by user code in an execution of this id.", "quantifier": "all histories with arbitrary backend faults, crashes inside steps, restarts; all payload predicates per id", "why_tests_cant": "unbounded combinations of faults and interleavings", "anchors": ["aj_core/src/queue.rs:execute_job", "aj_core/src/queue.rs:try_pick_specific_ready_jobs", "aj_core/src/backend/types.rs:upsert_to_storage"]}
{"id": "C57", "title": "Stored jobs are states of submitted jobs", "statement": "Every stored or executed job stems from a submission of the same id: same creation time, same retry limit and strategy (durations up to microsecond rounding), same cron expression, limit and end; the type changes only from any type to ScheduledAt and only for jobs with a retry policy. For payloads with the default retry_at.", "quantifier": "all histories with arbitrary backend faults, crashes and restarts", "why_tests_cant": "unbounded combinations of faults and interleavings", "anchors": ["aj_core/src/queue.rs:execute_job", "aj_core/src/job/mod.rs:next_tick", "aj_core/src/job/retry.rs:retry_at"]}
{"id": "C58", "title": "Retry limits and due times hold in spite of faults", "statement": "Under any backend faults and crashes: no stored job and no execution has more retried_times than max_retries, and every execution was due (start time reached, cron limits respected) at a clock reading of its pick, right before the reading recorded as run_at.", "quantifier": "all histories with arbitrary backend faults, crashes and restarts", "why_tests_cant": "a fault can separate the pick from the execution in unboundedly many ways", "anchors": ["aj_core/src/job/retry.rs:should_retry", "aj_core/src/job/mod.rs:is_ready", "aj_core/src/queue.rs:try_pick_specific_ready_jobs"]}
{"id": "C59", "title": "Time stamps are consistent", "statement": "With a clock that does not go backwards, every stored job has created_at <= enqueue_at, no stamp lies in the future, a Running job has enqueue_at <= run_at, a Finished or Failed job has enqueue_at <= run_at <= complete_at, a Canceled job has enqueue_at <= cancel_at; under any backend faults and crashes.", "quantifier": "all histories with arbitrary backend faults, crashes and restarts, all monotone clocks", "why_tests_cant": "unbounded interleavings", "anchors": ["aj_core/src/job/mod.rs:enqueue", "aj_core/src/job/mod.rs:process", "aj_core/src/job/mod.rs:finish", "aj_core/src/job/mod.rs:fail", "aj_core/src/job/mod.rs:cancel"]}
{"id": "C60", "title": "Worker processes sharing a queue do not execute a job twice", "statement": "When several processes with the same job type use the same Redis, a job that is executed by one process is not executed by another at the same time; its status follows the life cycle and run_count counts the executions of all processes; no job is lost.", "quantifier": "any number of processes with different builds and clocks, all interleavings of their steps, crashes, restarts", "why_tests_cant": "races between processes at single Redis commands", "anchors": ["aj_core/src/queue.rs:try_pick_specific_ready_jobs", "aj_core/src/queue.rs:pick_jobs_to_process"]}
{"id": "C61", "title": "The processing limit holds for all processes of a queue together", "statement": "When several processes use the same queue, the number of jobs executed at the same time by all of them together is at most the largest configured limit.", "quantifier": "any number of processes, all interleavings, crashes, restarts, changes of the limit", "why_tests_cant": "races between counting and moving", "anchors": ["aj_core/src/queue.rs:pick_jobs_to_process", "aj_core/src/queue.rs:try_pick_specific_ready_jobs"]}
{"id": "C62", "title": "API calls are linearizable", "statement": "However many calls of run, just_run, cancel_job, get_job, update_job, retry_job and update_work_queue_config are on their way at once, with crashes: the queue goes through a sequential history of its own steps and the calls' messages; every call has at most the step it asks for (update_job: two), between call and return, and returns this step's answer, or a refusal; a call made after another returned comes later; every pending call can be completed without any new call, tick or task.", "quantifier": "all numbers of calls, all interleavings of callers, AJ, the queue, its timer and its tasks, all crash points, all backends", "why_tests_cant": "unboundedly many schedules of threads and mailboxes", "anchors": ["aj_core/src/aj.rs:add_job", "aj_core/src/aj.rs:update_job", "aj_core/src/aj.rs:cancel_job", "aj_core/src/queue.rs:process_jobs"]}
{"id": "C63", "title": "Waiting jobs are resumed after a restart of the process", "statement": "After the process is started again, jobs that were waiting are executed. Calls before the queue is registered are refused without effect.", "quantifier": "all histories, all sequences of calls after the restart", "why_tests_cant": "needs all continuations of a restarted process", "anchors": ["aj_core/src/aj.rs:add_job", "aj_core/src/aj.rs:register", "aj_core/src/queue.rs:start_with_name"]}
{"id": "C64", "title": "update_job takes effect at one moment", "statement": "The effect and the answer of update_job are those of an uninterrupted read and write at some moment between the call and the return, whatever other calls and executions go on.", "quantifier": "all interleavings of the two messages of update_job with other steps", "why_tests_cant": "the race window lies between two mailbox messages", "anchors": ["aj_core/src/aj.rs:update_job", "aj_core/src/queue.rs:run_with_config"]}
{"id": "C65", "title": "A submission that reports an error is not executed", "statement": "When run() of a new id returns an error, the job is not accepted: it does not wait, is not stored and is never executed; when it returns Ok it waits exactly once.", "quantifier": "all states, all ways in which the backend calls of the submission fail", "why_tests_cant": "a reply may be lost after the write took effect, at each of the calls", "anchors": ["aj_core/src/queue.rs:run_with_config", "aj_core/src/queue.rs:enqueue"]}
{"id": "C66", "title": "The processing limit holds in spite of backend errors", "statement": "Whatever answers the backend gives, the number of jobs of a queue that execute at the same time is at most the configured limit.", "quantifier": "all backends, all states, all limits", "why_tests_cant": "errors of the count at any point of a history", "anchors": ["aj_core/src/queue.rs:pick_jobs_to_process"]}
{"id": "C67", "title": "A successful execution is recorded as such", "statement": "When user code succeeded, the job ends as Finished with the payload and run count of this execution, even if backend calls fail on the way.", "quantifier": "all states, all combinations of failing calls during the completion", "why_tests_cant": "3^5 combinations of call outcomes for every state", "anchors": ["aj_core/src/queue.rs:execute_job_task", "aj_core/src/queue.rs:mark_job_is_finished", "aj_core/src/queue.rs:mark_job_is_failed"]}
{"id": "C68", "title": "A completed execution frees its slot", "statement": "After the execution of a job has ended, its id is not in the processing list, so that a waiting job can take its place.", "quantifier": "all states, all failing calls, all continuations", "why_tests_cant": "that a queue stays blocked is a statement about all continuations", "anchors": ["aj_core/src/queue.rs:remove_processing_job", "aj_core/src/queue.rs:pick_jobs_to_process"]}
{"id": "C69", "title": "With a fair runtime every waiting job is executed", "statement": "In every endless execution in which the queue stays alive, the limit is at least 1, ticks keep coming and every spawned task is polled again and again: a waiting job that becomes due and is not cancelled or submitted again is executed and its execution ends, provided that the number of arrivals is bounded; every task ends and ticks find a free slot again and again.", "quantifier": "all endless executions with these fairness conditions, all clocks, all limits", "why_tests_cant": "a liveness property of infinite executions", "anchors": ["aj_core/src/queue.rs:process_jobs", "aj_core/src/queue.rs:try_pick_specific_ready_jobs", "aj_core/src/queue.rs:execute_job"]}
{"id": "C70", "title": "A builder chain makes the job it describes", "statement": "Job::new followed by any chain of set_id, schedule_at, delay, cron, set_job_type and set_retry gives the job in which for id, type and retry policy the last call counts, and which is otherwise a new Queued job with the time of its creation; after set_context only the given context and later calls count.", "quantifier": "all chains of builder calls in any order, all clock readings, all cron schedules", "why_tests_cant": "unboundedly many call orders", "anchors": ["aj_core/src/job/mod.rs:new", "aj_core/src/job/mod.rs:set_id", "aj_core/src/job/mod.rs:delay", "aj_core/src/job/mod.rs:cron", "aj_core/src/job/mod.rs:set_retry", "aj_core/src/job/mod.rs:set_context"]}
{"id": "C71", "title": "Building a job never crashes the caller", "statement": "No chain of builder calls panics, whatever the cron expression or delay.", "quantifier": "all chains, all readings of the clock", "why_tests_cant": "which arguments are rejected depends on the time of the call", "anchors": ["aj_core/src/job/mod.rs:cron", "aj_core/src/job/mod.rs:delay"]}
{"id": "C72", "title": "The first execution is of what was submitted", "statement": "After a submission that queues a job, the next execution of its id is called with the submitted payload, id, creation time, type and retry policy (up to the rounding of times to microseconds), whatever cancels, retries, crashes, other jobs and configuration changes come in between, unless the id is submitted again.", "quantifier": "all histories before and after the submission, all jobs", "why_tests_cant": "all interleavings between submission and execution", "anchors": ["aj_core/src/queue.rs:run_with_config", "aj_core/src/queue.rs:try_pick_specific_ready_jobs", "aj_core/src/queue.rs:execute_job"]}
{"id": "C73", "title": "A delayed job is not started before its delay has passed", "statement": "If the last call of the chain that sets the type is delay(x), the first execution is picked at a reading of the clock of at least the time of this call plus x.", "quantifier": "all chains, delays, clocks, histories", "why_tests_cant": "end to end over builder, storage and every schedule", "anchors": ["aj_core/src/job/mod.rs:delay", "aj_core/src/job/mod.rs:is_ready"]}
{"id": "C74", "title": "A cron job is first executed at an event of its schedule", "statement": "If the last call of the chain that sets the type is cron(e), the first execution is not before the first event of the schedule e after this call, and there is none if there is no such event.", "quantifier": "all schedules, chains, clocks, histories", "why_tests_cant": "depends on all schedules and times", "anchors": ["aj_core/src/job/mod.rs:cron", "aj_core/src/job/job_context.rs:new_cron", "aj_core/src/job/mod.rs:is_ready"]}
{"id": "C75", "title": "A living queue has exactly one pending timer", "statement": "After any history of starts, ticks, messages, crashes and restarts a living queue has one pending timer and a dead one none; ticks never multiply and never stop.", "quantifier": "all histories with arbitrary passing of time, any backend", "why_tests_cant": "ticks could multiply or get lost only in rare sequences of restarts", "anchors": ["aj_core/src/queue.rs:process_jobs", "aj_core/src/queue.rs:started"]}
{"id": "C76", "title": "Ticks are a period apart", "statement": "Between two consecutive ticks of a life of the queue at least the tick duration configured at the first of them passes; the same from the start to the first timed tick.", "quantifier": "all histories, all configured durations (also negative or changing ones), any backend", "why_tests_cant": "timing over all histories", "anchors": ["aj_core/src/queue.rs:process_jobs"]}
{"id": "C77", "title": "A due job is started within one tick period", "statement": "A waiting, due job is started within the longest configured tick duration plus the lateness of the runtime, or a tick in this time used up all free slots.", "quantifier": "all histories, clocks, limits, durations, lateness", "why_tests_cant": "depends on the other waiting jobs and the whole history", "anchors": ["aj_core/src/queue.rs:process_jobs", "aj_core/src/queue.rs:try_pick_specific_ready_jobs"]}
{"id": "C78", "title": "Response time of a due job", "statement": "If every tick finds a free slot, a waiting job that is due is started within (waiting ids + arrivals) tick periods plus lateness each.", "quantifier": "all histories, clocks, durations", "why_tests_cant": "a bound over all loads", "anchors": ["aj_core/src/queue.rs:process_jobs", "aj_core/src/queue.rs:try_pick_specific_ready_jobs"]}
{"id": "C79", "title": "A new tick duration applies at once", "statement": "After UpdateWorkQueue with a shorter tick duration the next tick comes within the new duration.", "quantifier": "all histories and durations", "why_tests_cant": "needs a pending long timer at the moment of the change", "anchors": ["aj_core/src/queue.rs:process_jobs", "aj_core/src/queue.rs:UpdateWorkQueue"]}
{"id": "C80", "title": "A stored job can be read back from its text", "statement": "What serde_json writes for a job is read back as the same job, so a queue on a backend of strings behaves as one on a backend of values.", "quantifier": "all JSON values, payload types, histories, backends", "why_tests_cant": "serde_json has a nesting limit when reading but none when writing; strings with any bytes", "anchors": ["aj_core/src/backend/types.rs:upsert_to_storage", "aj_core/src/backend/types.rs:get_from_storage"]}
{"id": "C81", "title": "Jobs keep their payload and origin when processes overlap", "statement": "Whatever processes share the storage, whatever calls fail and whoever dies in the middle of a step: what is stored, executed or answered for an id has a payload submitted or left by user code under this id, and its id, creation time, type and retry policy come from one submission.", "quantifier": "all numbers of processes, queue names, builds, clocks, interleavings of single calls, faults, deaths", "why_tests_cant": "needs interleavings inside of steps", "anchors": ["aj_core/src/queue.rs:enqueue", "aj_core/src/queue.rs:try_pick_specific_ready_jobs", "aj_core/src/backend/types.rs:upsert_to_storage"]}
{"id": "C82", "title": "Retry limits, due times and time stamps hold when processes overlap", "statement": "In every interleaving retry counters stay within their limits, no process executes a job before it is due by its clock, and (with one clock) created_at, enqueue_at, run_at and complete_at stay ordered.", "quantifier": "all interleavings of single calls, faults, deaths", "why_tests_cant": "needs interleavings inside of steps", "anchors": ["aj_core/src/job/retry.rs:should_retry", "aj_core/src/job/mod.rs:is_ready", "aj_core/src/queue.rs:try_pick_specific_ready_jobs"]}
{"id": "C83", "title": "An acknowledged submission is kept, whatever overlaps, fails or dies", "statement": "Once enqueue has answered Ok, the id stays in the waiting or the processing list and has a record, until an execution of it ends or somebody cancels or retries it.", "quantifier": "all interleavings of single calls, faults, deaths", "why_tests_cant": "a loss needs a certain interleaving or a failure between two calls", "anchors": ["aj_core/src/queue.rs:enqueue", "aj_core/src/queue.rs:try_pick_specific_ready_jobs"]}
{"id": "C84", "title": "A tick ends, whatever other processes do", "statement": "The picking loop of a process ends after finitely many of its calls.", "quantifier": "all interleavings of single calls, faults, deaths, endless ones too", "why_tests_cant": "an endless loop needs a certain interleaving", "anchors": ["aj_core/src/queue.rs:try_pick_specific_ready_jobs"]}
{"id": "C85", "title": "What is to run again runs again, although calls fail", "statement": "After a failed execution with retries left, or an execution of a cron job with a next slot, the job is stored as Queued and in the waiting list, or it is reported as Failed: it is never stored as Queued without being picked again.", "quantifier": "all combinations of failing backend calls at the end of the execution, all later events", "why_tests_cant": "needs one failing call at one place, and the absence of a later execution is not observed by a test", "anchors": ["aj_core/src/queue.rs:re_enqueue", "aj_core/src/queue.rs:execute_job", "aj_core/src/queue.rs:cancel_job", "aj_core/src/queue.rs:retry_job"]}
{"id": "C86", "title": "Run count and payload of a job agree", "statement": "The payload of a stored job is what exactly run_count executions, each on the payload left by the one before, have made of a submitted payload; the execution numbered n is given run_count n; pre_execute, execute and post_execute are called in this order; a job is Finished only if its last execution was judged no failure, and Failed only if its last execution was judged a failure or there was one more execution, whose end could not be written.", "quantifier": "all user code, all interleavings of single calls of any number of processes, faults, deaths", "why_tests_cant": "an effect counted twice or not at all needs a failure or an overlap at a certain call", "anchors": ["aj_core/src/job/mod.rs:execute", "aj_core/src/queue.rs:execute_job", "aj_core/src/queue.rs:mark_job_is_finished", "aj_core/src/job/executable.rs:Executable"]}
{"id": "C87", "title": "A cancelled job does not run, although processes overlap", "statement": "A job that was waiting when cancel_job answered Ok is not executed afterwards by any process, unless it is submitted again or retried; and cancelling it affects no other job.", "quantifier": "all interleavings of single calls of any number of processes, faults, deaths", "why_tests_cant": "needs the cancellation between two calls of another process's tick; that a job never runs is not observed by a test", "anchors": ["aj_core/src/queue.rs:cancel_job", "aj_core/src/queue.rs:try_pick_specific_ready_jobs", "aj_core/src/backend/mem.rs:queue_move"]}
{"id": "C88", "title": "The space that jobs take in the storage", "statement": "Nothing but records under the ids of submitted jobs and entries of such ids in the lists of the queues' names is ever written; all lists together have at most one entry for each submission, retry and poll; records are never removed; the lists are bounded by the number of ids in use.", "quantifier": "all interleavings of single calls of any number of processes, faults, deaths", "why_tests_cant": "a stray key or a list that grows without bound shows only in long runs, and in places no test reads", "anchors": ["aj_core/src/queue.rs:format_queue_name", "aj_core/src/queue.rs:mark_job_is_finished", "aj_core/src/queue.rs:enqueue", "aj_core/src/backend/types.rs:upsert_to_storage"]}
{"id": "C89", "title": "A waiting job is taken by one of several processes", "statement": "With any number of processes on one queue, starting, dying and ticking in any order, a waiting job that is due is taken by a living process after as many ticks with a free slot, at any process, as there are waiting ids and arrivals; and the slots of a dead process become free for the others.", "quantifier": "any number of processes, all orders of their steps, deaths and restarts, all clocks", "why_tests_cant": "needs several processes, deaths at certain steps and an unbounded run", "anchors": ["aj_core/src/queue.rs:process_jobs", "aj_core/src/queue.rs:pick_jobs_to_process", "aj_core/src/queue.rs:started"]}
{"id": "C90", "title": "Ticks that take turns prevent double execution", "statement": "If the processes of a queue never tick at the same time, and none cancels during a tick of another, then, with fresh ids and without retry_job, no job is executed by two tasks at a time, every job in work is in the processing list, no id is twice in the waiting and processing lists, and the processing list stays within the largest limit, whatever else overlaps, whichever calls fail (for the limit: except counting) and whichever processes die.", "quantifier": "all interleavings of single calls of any number of processes, faults, deaths", "why_tests_cant": "the interleavings that break it differ by one call; a test sees one of them", "anchors": ["aj_core/src/queue.rs:process_jobs", "aj_core/src/queue.rs:try_pick_specific_ready_jobs", "aj_core/src/queue.rs:cancel_job", "aj_core/src/queue.rs:enqueue"]}
{"id": "C91", "title": "Ticks that take turns lose no job", "statement": "If moreover no call fails and no process dies, then outside of ticks every id in the processing list has a task at one of the processes, the processing list consists of the ids of all tasks when all are at rest, and a job whose submission was answered Ok is waiting or has a task until its execution ends or it is cancelled.", "quantifier": "all interleavings of single calls of any number of processes", "why_tests_cant": "a lost job leaves an id in a list that nobody reads again; whether it is lost depends on the order of single calls", "anchors": ["aj_core/src/queue.rs:process_jobs", "aj_core/src/queue.rs:try_pick_specific_ready_jobs", "aj_core/src/backend/mem.rs:queue_move"]}
{"id": "C92", "title": "A due job is taken although processes overlap", "statement": "If the processes of a queue never tick at the same time, none cancels during a tick of another and no call of a tick fails, then a job that waits and is due is taken once the ticks that found a free slot and ended are as many as the ids that wait or come meanwhile, whatever the processes do between the calls of these ticks; and it is taken in the end even if jobs never stop coming.", "quantifier": "all interleavings of single calls of any number of processes, faults outside ticks, deaths, all clocks", "why_tests_cant": "needs jobs that arrive between two calls of a tick, again and again", "anchors": ["aj_core/src/queue.rs:try_pick_specific_ready_jobs", "aj_core/src/queue.rs:pick_jobs_to_process", "aj_core/src/queue.rs:enqueue", "aj_core/src/backend/mem.rs:queue_move"]}
{"id": "C93", "title": "The work queue refines an abstract scheduler", "statement": "For every event, from every state an orderly history can reach, the answer and the new state (records, waiting ids in order, held slots, executions, calls of user code) are those of a scheduler that knows only ids, records, a waiting line, slots and executions: a tick looks at the waiting ids oldest first, in rounds of twenty, takes those that are due while slots are free and puts the others to the end; an execution ends with a retry, the next cron event, or over.", "quantifier": "all histories of one process with deaths between steps and restarts, all clocks, schedules, payload types and user results, both build profiles, InMemory and Redis", "why_tests_cant": "the whole behaviour, not one scenario; the order of the waiting ids after a partial look is not visible to clients", "anchors": ["aj_core/src/queue.rs:process_jobs", "aj_core/src/queue.rs:run_with_config", "aj_core/src/queue.rs:cancel_job", "aj_core/src/queue.rs:retry_job", "aj_core/src/queue.rs:execute_job_task", "aj_core/src/job/mod.rs:next_tick", "aj_core/src/job/retry.rs:retry_at"]}
{"id": "C94", "title": "Job types of one process do not disturb each other", "statement": "In a process with any number of job types with different queue names and ids, what the callers of one type see (answers, their order, the history of the queue), its messages to plugins and what it has in the store are what they could be in a process with this type only, whatever the other types do and however the steps of the queues overlap; and a call of one type can always be brought to its end while the queues of the other types stand still.", "quantifier": "any number of job types and callers, all interleavings of single backend calls, crashes of the process in the middle of steps, both build profiles", "why_tests_cant": "tests use one or two types and never stop a thread between two calls of the backend", "anchors": ["aj_core/src/aj.rs:register", "aj_core/src/aj.rs:enqueue_job", "aj_core/src/aj.rs:handle", "aj_core/src/queue.rs:start_with_name", "aj_core/src/backend/mem.rs:queue_push"]}
{"id": "C95", "title": "The status of a job tells what has happened to it", "statement": "A job that is reported as Finished (Failed) has been so since its last execution ended, and that execution succeeded (failed) with no retry and no cron event to follow; Canceled means that a cancel found it waiting; Running means that a tick took it when it was due, and that it is being executed or the process has been gone since; Queued means that it was submitted, retried by hand, or put back by a retry or its cron schedule. Nothing has happened to the status since.", "quantifier": "all orderly histories of any length, all payloads, schedules, clocks and user results, waiting lists of any length, both build profiles", "why_tests_cant": "a test knows which events it caused; that no other way leads into a status is a statement about all histories", "anchors": ["aj_core/src/queue.rs:execute_job_task", "aj_core/src/queue.rs:mark_job_is_finished", "aj_core/src/queue.rs:mark_job_is_failed", "aj_core/src/queue.rs:cancel_job", "aj_core/src/queue.rs:pick_jobs_to_process", "aj_core/src/queue.rs:retry_job", "aj_core/src/queue.rs:re_enqueue"]}
{"id": "C96", "title": "Plugins hold up only the executions that wait for them, and not for good", "statement": "An execution waits for plugins exactly while the message it has sent before or after user code is unanswered, and goes on as without plugins once it is answered; no other event of the queue waits. As long as a message is unanswered, the plugin centre can take a step; whatever the order of its steps and whichever plugins panic, it takes only a bounded number of them per state; so all messages get answered, without a change to the queue.", "quantifier": "all histories with any plugins, registrations, messages of other queues, panics of plugins and crashes", "why_tests_cant": "a deadlock or a lost wake-up needs an unlucky order of mailbox, futures and tasks", "anchors": ["aj_core/src/plugin/mod.rs:handle", "aj_core/src/plugin/mod.rs:PluginCenter", "aj_core/src/job/mod.rs:execute", "aj_core/src/queue.rs:execute_job_task"]}
{"id": "C97", "title": "What is read from the storage as which job", "statement": "A stored JSON value is read as a job exactly if it has the parts of a job: every field at most once, in any order and among others; the retry rule, the limits and the times may be absent or null, the id may be absent (then it is empty), a cron type may lack its context and its count (then they are the default and 0), end_at of a context may be null but not absent; a struct may also be an array of its fields, and a variant without content an object with null.", "quantifier": "all JSON values with integers, all payload types", "why_tests_cant": "tests read back what the same version of the program wrote", "anchors": ["aj_core/src/job/job_context.rs:JobContext", "aj_core/src/job/job_context.rs:JobType", "aj_core/src/job/job_context.rs:CronContext", "aj_core/src/job/job_context.rs:JobStatus", "aj_core/src/job/retry.rs:Retry", "aj_core/src/job/mod.rs:Job"]}
{"id": "C98", "title": "Redis commands that fail one by one", "statement": "The work queue on Redis, where opening the connection and each single command may fail or lose its reply, behaves as one whose backend calls fail as a whole, so everything said about failing calls holds; and moving items between lists, which takes several commands, neither loses nor doubles an item whichever command fails, and if it answers Ok it has moved what was there.", "quantifier": "all histories, patterns of failing connections and commands, list contents and counts", "why_tests_cant": "needs a connection that breaks between two given commands", "anchors": ["aj_core/src/backend/redis.rs:queue_move", "aj_core/src/backend/redis.rs:queue_push", "aj_core/src/backend/redis.rs:queue_get", "aj_core/src/backend/redis.rs:storage_upsert"]}
{"id": "C99", "title": "How many backend calls a step makes", "statement": "A tick that finds no free slot makes one backend call. Otherwise it makes two, one for each batch of at most twenty ids, two for each id it looks at and one more for each job it starts; with n waiting ids it looks at no more than n + 19, and at all n unless it fills every slot, so an idle tick reads and moves every waiting job. All other steps make at most five calls, whatever the backend answers; Redis and InMemory are called equally often.", "quantifier": "all states with fewer than 2^31 waiting ids (ticks), all backends, states and answers (other steps), all histories (Redis)", "why_tests_cant": "the cost of a tick shows only with long waiting lists and is invisible in its result", "anchors": ["aj_core/src/queue.rs:try_pick_specific_ready_jobs", "aj_core/src/queue.rs:pick_jobs_to_process", "aj_core/src/queue.rs:run_with_config", "aj_core/src/queue.rs:cancel_job", "aj_core/src/queue.rs:retry_job", "aj_core/src/queue.rs:execute_job_task"]}
{"id": "C100", "title": "Every number stays in the range of its type", "statement": "If the clock, the times of cron schedules, submitted jobs and the answers of an own retry_at are in the ranges of their Rust types, then so is every number of every job that is stored, read, held by a task, passed to user code or returned to a caller: times within DateTime, counters within i32, milliseconds within i64, retry intervals within i64 microseconds; and a job never counts more executions than it came with plus the number of events. So a reader that checks ranges reads back all that is stored.", "quantifier": "all histories with failing calls and crashes inside steps, all payloads, both build profiles", "why_tests_cant": "overflow needs extreme counters and times, which tests do not produce", "anchors": ["aj_core/src/job/mod.rs:next_tick", "aj_core/src/job/retry.rs:retry_at", "aj_core/src/job/mod.rs:execute", "aj_core/src/job/mod.rs:enqueue", "aj_core/src/job/job_context.rs:JobContext", "aj_core/src/job/job_context.rs:CronContext"]}
{"id": "C101", "title": "An operation on one job leaves all others alone", "statement": "A submission, cancellation, manual retry, query, change of settings or step of a task changes no record of a job it is not about, and leaves all other ids and their order in every list, also if backend calls fail or the process dies in the middle; only the polled task changes. So without a tick or a start, a job that no task executes and no event names keeps its record and its places.", "quantifier": "all states of the backend, all patterns of failing calls, all crash points; all histories (last part)", "why_tests_cant": "interference needs particular pairs of jobs, states and failures", "anchors": ["aj_core/src/queue.rs:run_with_config", "aj_core/src/queue.rs:cancel_job", "aj_core/src/queue.rs:retry_job", "aj_core/src/queue.rs:re_enqueue", "aj_core/src/queue.rs:mark_job_is_finished", "aj_core/src/queue.rs:mark_job_is_failed"]}
{"id": "C102", "title": "Operations on different jobs commute", "statement": "Two calls or task steps that concern different jobs, neither of which kills the queue, may be handled in either order at one and the same time: each gives the same answer as if it were handled alone, and the end is the same but for the order of ids within lists, of messages to plugins and of executions.", "quantifier": "all states, all pairs of such events, all payloads", "why_tests_cant": "there are too many pairs of operations and states, and tests fix one order", "anchors": ["aj_core/src/queue.rs:run_with_config", "aj_core/src/queue.rs:cancel_job", "aj_core/src/queue.rs:retry_job", "aj_core/src/queue.rs:execute_job_task", "aj_core/src/queue.rs:re_enqueue", "aj_core/src/backend/mem.rs:queue_push", "aj_core/src/backend/mem.rs:queue_remove"]}
{"id": "C103", "title": "From the call to the execution", "statement": "In every endless execution of a process and its callers in which threads go on and actors read their mailboxes, every call comes to its end, on any backend and with any deaths. If moreover nothing dies, the timer fires and tasks are polled again and again, and the arrivals are bounded, then run() of a job with a new id that nobody else submits, updates or cancels returns Ok, the job is executed with the submitted data, and its execution ends.", "quantifier": "all endless fair executions, all payloads, any number of concurrent calls", "why_tests_cant": "a test stops after finitely many steps and sees one schedule of threads, actors and timer", "anchors": ["aj_core/src/aj.rs:add_job", "aj_core/src/aj.rs:enqueue_job", "aj_core/src/queue.rs:process_jobs", "aj_core/src/queue.rs:run_with_config", "aj_core/src/queue.rs:execute_job_task", "aj_core/src/queue.rs:pick_jobs_to_process"]}
{"id": "C104", "title": "The output of the user code decides what becomes of the job", "statement": "When an execution ends and the process lives on, the record of the job holds the payload left by pre_execute, execute and post_execute, and counts this execution. The job is queued again if the code's own retry_at says so, or, without one, if is_failed_output says of the output of post_execute that it is a failure and tries are left; it is queued, too, if it is a cron job whose schedule goes on. Otherwise it is Failed or Finished, as is_failed_output says.", "quantifier": "all user code given by its methods, all orderly histories, all payloads and outputs, both profiles", "why_tests_cant": "a test has one implementation of the trait and few outputs", "anchors": ["aj_core/src/queue.rs:execute_job_task", "aj_core/src/job/mod.rs:execute", "aj_core/src/job/retry.rs:should_retry", "aj_core/src/job/executable.rs:retry_at", "aj_core/src/job/executable.rs:is_failed_output"]}
{"id": "C105", "title": "A queue that gets no more work comes to rest", "statement": "If from some moment on nothing is submitted, retried by hand or cancelled, the pending jobs are no cron jobs and have limits on their tries, and user code sets no retry time of its own, then in every endless execution in which the process lives, the timer fires and tasks are polled again and again, and time goes on, there comes a moment from which on nothing waits, nothing runs and nothing is executed, and all those jobs are Finished or Failed. Until then each of them is executed at most once and once more for each try left, and no other job is executed.", "quantifier": "all endless fair executions, any number of jobs (below 2^31 executions left), all payloads, schedules and results, both profiles", "why_tests_cant": "that nothing ever happens again cannot be observed, and a job that is left behind or executed again shows up only in some order of ticks and polls", "anchors": ["aj_core/src/queue.rs:process_jobs", "aj_core/src/queue.rs:pick_jobs_to_process", "aj_core/src/queue.rs:execute_job_task", "aj_core/src/job/retry.rs:should_retry", "aj_core/src/queue.rs:mark_job_is_failed"]}
{"id": "C106", "title": "A cron job without limits is executed again and again", "statement": "In every endless execution in which the process lives, the timer fires and tasks are polled again and again, time goes on, and no tick finds more than 20 waiting ids: a waiting cron job without max_repeat, end_at and retry rule, whose schedule always has a next event and that nobody submits again or cancels, is executed more often than any given number, whatever its user code returns.", "quantifier": "all endless fair executions, all schedules, payloads and results", "why_tests_cant": "a test sees finitely many repetitions; the counter overflows only after 2^31 of them", "anchors": ["aj_core/src/job/mod.rs:next_tick", "aj_core/src/job/mod.rs:is_ready", "aj_core/src/queue.rs:execute_job_task", "aj_core/src/queue.rs:re_enqueue", "aj_core/src/queue.rs:pick_jobs_to_process"]}
{"id": "C107", "title": "Every due job is executed by some process of a fleet that lives on", "statement": "Several processes work on one queue, and some may have died and left jobs in the processing list. In every endless execution in which from some moment on no process dies, each living process has a limit above the number of jobs left behind, timers of living processes fire and tasks are polled again and again, and arrivals are bounded: a waiting job that comes due by all clocks, and that nobody submits again or cancels, is executed by one of the processes and its execution ends. Starts of further processes at any time do no harm.", "quantifier": "all endless fair executions, any number of processes with builds, schedules and clocks of their own, all payloads and results", "why_tests_cant": "a test runs few processes for a short time, in one order of their timers, polls, deaths and starts", "anchors": ["aj_core/src/queue.rs:process_jobs", "aj_core/src/queue.rs:pick_jobs_to_process", "aj_core/src/queue.rs:try_pick_specific_ready_jobs", "aj_core/src/queue.rs:execute_job_task", "aj_core/src/queue.rs:start_with_name"]}
{"id": "C108", "title": "Progress, rest and repetition of a queue on Redis", "statement": "With Redis as the store, starting from an empty keyspace, every history gives the same settings, tasks, executions, lists and records as with the in-memory store. So in every endless fair execution on Redis in which the queue stays alive: a waiting job that comes due is executed and its execution ends (if no tick finds more than 20 waiting ids); a queue that gets no more work comes to rest with every job finished or failed; a cron job without limits is executed any number of times.", "quantifier": "all histories, all endless fair executions, all payloads and results", "why_tests_cant": "a test against a Redis server is finite and covers few schedules", "anchors": ["aj_core/src/backend/redis.rs:queue_push", "aj_core/src/backend/redis.rs:queue_move", "aj_core/src/backend/redis.rs:queue_get", "aj_core/src/queue.rs:process_jobs", "aj_core/src/queue.rs:execute_job_task"]}
{"id": "C109", "title": "A queue makes progress whatever its storage holds", "statement": "From any state in which the process lives, records carry their key as id and tasks hold picked jobs - with repeated ids in the waiting list, ids without record, picked ids that nobody executes - in every endless execution in which the limit stays above the number of entries nobody executes, the timer fires and tasks are polled again and again, a waiting record without task that is due for good and is left alone is executed if finitely many ids arrive; entries nobody executes do not become more and a tick finds a free slot again and again. Every history with failing backend calls and crashes in the middle of steps leaves such a state, and so does a new process on any such storage.", "quantifier": "all first states, all endless executions, all fault patterns and crash points before", "why_tests_cant": "liveness of unbounded executions from every corrupted storage; tests start from clean storage", "anchors": ["aj_core/src/queue.rs:process_jobs", "aj_core/src/queue.rs:pick_jobs_to_process", "aj_core/src/queue.rs:execute_job"]}
{"id": "C110", "title": "A crash inside a step leaves the first so many of its writes", "statement": "Every step has an ordered list of writes: a submission adds the id, then writes the record; cancelling writes, then takes the id off; retrying by hand, a success and an execution that is to be followed by another one take the id off its list, write the record, add the id to the next list; a final failure writes first; picking writes a due record as running, then moves the id, and turns the list in between. If the process dies inside the step, lists and records show a prefix of this list; every prefix is left by some crash. So a waiting id stays in the waiting or picked list unless it is being cancelled; but a crash after the first write of a success or a requeue leaves a job that is stored as running, is in no list, and is never executed or changed again, whatever is called and however often the queue is restarted.", "quantifier": "all states of the storage, all steps, all crash points, all later histories", "why_tests_cant": "a crash between two given backend calls cannot be timed in a test, and that nothing ever helps afterwards cannot be observed", "anchors": ["aj_core/src/queue.rs:run_with_config", "aj_core/src/queue.rs:re_enqueue", "aj_core/src/queue.rs:mark_job_is_finished", "aj_core/src/queue.rs:mark_job_is_failed", "aj_core/src/queue.rs:cancel_job", "aj_core/src/queue.rs:try_pick_specific_ready_jobs"]}
{"id": "C111", "title": "Exactly the jobs stored as running that neither wait nor have a task are lost for good", "statement": "Whatever the storage holds: an id whose record is missing or does not say Running can be executed again by cancelling it, submitting a job under it, making room and one tick - exactly once and with the payload of that job; an id that waits is executed as it is stored, whatever its record says. A job stored as running that neither waits nor has a task is never executed or changed again, whatever is called, however often the process dies and starts. So exactly these jobs cannot come back.", "quantifier": "all states of the storage, all histories after them", "why_tests_cant": "that no sequence of calls helps cannot be tested, and the states are left by crashes at single points", "anchors": ["aj_core/src/queue.rs:run_with_config", "aj_core/src/queue.rs:cancel_job", "aj_core/src/queue.rs:retry_job", "aj_core/src/queue.rs:process_jobs", "aj_core/src/queue.rs:start_with_name"]}
{"id": "C112", "title": "A lost job stays lost however many processes race", "statement": "A job that is stored as running, is in no waiting list, and on which no process works (none is inside a step, none has a task of it): whatever any number of processes do afterwards, interleaved at single backend calls, with failing calls and deaths anywhere, nobody gets a task of it or executes it, its record never changes, and it occurs in every list as often as before. Only the calls of submissions of this very id must not fail: if the read of a submission fails, the job is queued and executed again. So a power cut that stops all processes inside their steps loses for good exactly such jobs. A process that is inside a picking step at that moment can still pick the job.", "quantifier": "all numbers of processes, builds, clocks and queue names, all interleavings of single calls, all faults and deaths", "why_tests_cant": "interleavings at single calls cannot be controlled in a test, and that nothing ever helps cannot be observed", "anchors": ["aj_core/src/queue.rs:run_with_config", "aj_core/src/queue.rs:cancel_job", "aj_core/src/queue.rs:retry_job", "aj_core/src/queue.rs:try_pick_specific_ready_jobs", "aj_core/src/backend/types.rs:get_from_storage"]}
{"id": "C113", "title": "A queue on a shared Redis server touches and sees its own keys only, and works whatever they hold", "statement": "From any state and in any history, crashes and restarts included: every key but the five lists of the queue and the common hash of records is left as it is, and answers, tasks, executions and the content of the own keys do not depend on the other keys. Whatever the own keys hold, if they have the expected types, there is a state of the in-memory queue with the same lists and records from which every history is the same. So progress of waiting jobs (C109) and the exact set of jobs that cannot come back (C111) hold on any such server.", "quantifier": "all contents of the server, all histories and endless executions from there", "why_tests_cant": "tests run on an empty or freshly flushed server; independence of all other keys is a statement about all pairs of contents", "anchors": ["aj_core/src/backend/redis.rs:queue_push", "aj_core/src/backend/redis.rs:queue_move", "aj_core/src/backend/redis.rs:queue_remove", "aj_core/src/backend/redis.rs:storage_upsert", "aj_core/src/backend/redis.rs:storage_get", "aj_core/src/queue.rs:format_queue_name"]}
{"id": "C114", "title": "A value of the wrong type under a key of the queue is kept, and stops the queue", "statement": "A hash under the key of one of the lists, or a list under the key of the records, stays as it is whatever is called, and every command on it is refused without any effect. If it is under the key of the waiting list, of the list of picked jobs or of the records, and no task is left, then no job is ever picked or executed again, in any history with any crashes and restarts.", "quantifier": "all contents of the server, all histories from there", "why_tests_cant": "that nothing is ever picked again is a statement about all histories", "anchors": ["aj_core/src/queue.rs:try_pick_specific_ready_jobs", "aj_core/src/queue.rs:process_jobs", "aj_core/src/backend/redis.rs:queue_move", "aj_core/src/backend/types.rs:get_from_storage"]}
{"id": "C115", "title": "Other programs may change their keys between any two calls of the backend", "statement": "If other programs on the Redis server change keys that are not the queue's in any way before every single call of the backend, answers, tasks, executions and the content of the queue's own keys are, in every history with any crashes and restarts, as if the queue were alone on the server.", "quantifier": "all behaviours of the other programs, all contents of the server, all histories", "why_tests_cant": "the other programs are arbitrary and interleave at single calls", "anchors": ["aj_core/src/backend/redis.rs:queue_push", "aj_core/src/backend/redis.rs:queue_move", "aj_core/src/backend/redis.rs:queue_remove", "aj_core/src/backend/redis.rs:queue_get", "aj_core/src/backend/redis.rs:queue_count", "aj_core/src/backend/redis.rs:storage_upsert", "aj_core/src/backend/redis.rs:storage_get"]}
{"id": "C116", "title": "Queues and programs on one Redis server that share the hash of records do not disturb each other", "statement": "If other programs, before every single call of the backend, change the server in any way that leaves the lists of the queue and the records of its ids alone and the common hash a hash (they may write, replace and delete records of all other ids, of any type), then answers, tasks, executions, lists and records of the queue are in every history as if it were alone. And the queue is such a program for all others: it never changes a list of another name or a record of an id that is not its own.", "quantifier": "all behaviours of the other programs, all contents of the server, all histories of the queue", "why_tests_cant": "the other programs are arbitrary and interleave at single calls", "anchors": ["aj_core/src/queue.rs:run_with_config", "aj_core/src/queue.rs:process_jobs", "aj_core/src/backend/types.rs:upsert_to_storage", "aj_core/src/backend/types.rs:get_from_storage", "aj_core/src/backend/redis.rs:storage_upsert"]}
{"id": "C117", "title": "A fleet executes a cron job without limits again and again", "statement": "Several processes work on one queue, and some may have died and left jobs in the processing list. In every endless execution in which from some moment on no process dies, each living process has a limit above the number of jobs left behind, timers of living processes fire and tasks are polled again and again, and no tick or start finds more than 20 waiting ids: a waiting job that comes due by all clocks, and that nobody submits again or cancels, is executed by one of the processes and the execution ends, however many other jobs arrive; and a waiting cron job without max_repeat, end_at and retry rule, whose schedule always has a next event, is executed more often than any given number, each time by any of the processes.", "quantifier": "all endless fair executions, any number of processes with builds and clocks of their own, all schedules, payloads and results", "why_tests_cant": "a test runs few processes for a short time and sees finitely many repetitions", "anchors": ["aj_core/src/job/mod.rs:next_tick", "aj_core/src/job/mod.rs:is_ready", "aj_core/src/queue.rs:execute_job_task", "aj_core/src/queue.rs:re_enqueue", "aj_core/src/queue.rs:pick_jobs_to_process", "aj_core/src/queue.rs:process_jobs"]}
{"id": "C118", "title": "A fleet that gets no more work comes to rest", "statement": "Several processes work on one queue, some may have died and left jobs in the processing list, and further ones may start. In every endless execution in which from some moment on no process dies, each living process has a limit above the number of jobs left behind, timers fire and tasks are polled again and again, and nothing is submitted, retried by hand or cancelled: if the jobs that wait or are being executed are no cron jobs and have limits on their tries, and come due, then from some moment on nothing waits, no process has a task, nothing is executed any more, all these jobs are finished or failed, the processing list has exactly the ids that dead processes left in it, and no other record has changed. Until then each of these jobs is executed at most once more than it has tries left, by all processes together, and no other job at all.", "quantifier": "all endless fair executions, any number of processes with builds, schedules and clocks of their own, all payloads and results", "why_tests_cant": "a test runs few processes for a short time, in one order of their timers, polls and starts, and cannot see that nothing happens ever after", "anchors": ["aj_core/src/queue.rs:process_jobs", "aj_core/src/queue.rs:pick_jobs_to_process", "aj_core/src/queue.rs:execute_job_task", "aj_core/src/queue.rs:re_enqueue", "aj_core/src/job/retry.rs:should_retry", "aj_core/src/queue.rs:start_with_name"]}
{"id": "C119", "title": "Several processes on one Redis behave as on one in-memory store, make progress and come to rest", "statement": "Every history of N processes gives on one Redis, from an empty keyspace, the same processes, executions, lists and records as on one in-memory store. So, if no process dies in the middle of a step, no job has two tasks, all tasks together respect the largest limit given, and statuses follow the life cycle; in every endless fair execution on Redis in which no process dies any more, a waiting job that comes due is executed by some process, a cron job without limits is executed any number of times, and a fleet that gets no more work comes to rest with only the ids lost before in the processing list.", "quantifier": "all numbers of processes, builds, clocks, schedules and histories; all endless fair executions", "why_tests_cant": "Tests run one process against one server for a short time; the claim is about all interleavings of steps of any number of processes, for ever.", "anchors": ["aj_core/src/backend/redis.rs:Redis", "aj_core/src/queue.rs:process_jobs", "aj_core/src/queue.rs:pick_jobs_to_process"]}
{"id": "C120", "title": "On Redis callers get the same answers, submitted jobs are executed, and due jobs start as soon", "statement": "Every history of a process, its callers and its timers gives on Redis, from an empty keyspace, the same calls, answers, mailboxes, steps, deadlines and queue contents as on the in-memory store. So in every endless fair execution on Redis in which nothing dies and arrivals are bounded, run() or just_run() of a new id that nobody else touches ends with Ok and the job is executed with the submitted data; and if every tick finds a free slot, a due job is started within as many tick periods (plus lateness) as there are waiting ids and arrivals.", "quantifier": "all histories of callers and timers, all endless fair executions, all payloads, delays and lateness", "why_tests_cant": "a test sees one schedule of threads, actors and timers against one server for a short time", "anchors": ["aj_core/src/backend/redis.rs:Redis", "aj_core/src/aj.rs:add_job", "aj_core/src/queue.rs:enqueue_job", "aj_core/src/queue.rs:process_jobs", "aj_core/src/queue.rs:pick_jobs_to_process"]}
{"id": "C121", "title": "Plugins next to a queue on Redis see the same calls, and never hold up anything but the execution that waits for them", "statement": "Every history of a queue on Redis (from an empty keyspace), the plugin centre, registrations, messages of other queues, panicking plugins and crashes gives the plugins the same calls in the same order as on the in-memory store. User code starts only after before_run has been called on the plugins registered when its message was handled; every message and every call happens at most once; after_run is never called; the plugin registered first gets exactly the messages of the queue in order. An execution waits only for the answer to a message of its own, nothing else waits, and all messages can always be answered.", "quantifier": "all histories of queue events, registrations, mailbox steps, polls, panics and crashes, on Redis", "why_tests_cant": "a test sees one order of mailbox steps and polls, with one or two plugins, on one server", "anchors": ["aj_core/src/plugin/mod.rs:before", "aj_core/src/plugin/mod.rs:change_status", "aj_core/src/backend/redis.rs:Redis", "aj_core/src/job/mod.rs:execute"]}
{"id": "C122", "title": "Job types of one process do not disturb each other on Redis, however their commands interleave", "statement": "A process with any number of job types on one Redis server, from an empty keyspace, whose queues' steps overlap command by command, with crashes anywhere, has in every history the same queues, callers, mailboxes, lists and records as on the in-memory store. With different names and ids, each queue's history is a sequential one of its own on a server of its own, with the same answers, and between steps it finds on the shared server what it would find there; calls return the answers of their steps in real-time order; AJ dies only of registering a registered type; every call can be finished while the other types stand still.", "quantifier": "all sets of job types, all histories of calls, actors, single commands and crashes", "why_tests_cant": "a test has two or three types and sees one interleaving of commands", "anchors": ["aj_core/src/aj.rs:register", "aj_core/src/aj.rs:get_work_queue_address", "aj_core/src/backend/redis.rs:Redis", "aj_core/src/queue.rs:process_jobs"]}
{"id": "C123", "title": "Processes that die in the middle of ticks, task steps and retries cause no double execution", "statement": "Any number of processes share a queue, their steps taking turns, and any of them may die after any number of the backend calls of a tick, a start, a poll of a task or a retry, and start again. Then in every history no job id has two tasks, in one process or in two; what has a task is stored as running, is in the processing list and does not wait; nothing waits twice, and what waits is stored as queued or running; all tasks together respect the largest limit any process has. On Redis the same holds. Deaths inside a cancellation or a submission are excluded because they can lead to two executions at the same time (refuted).", "quantifier": "all numbers of processes, builds, clocks, schedules, histories and points of death between backend calls", "why_tests_cant": "a test would have to kill a process between two particular commands, for every history before and after", "anchors": ["aj_core/src/queue.rs:process_jobs", "aj_core/src/queue.rs:pick_jobs_to_process", "aj_core/src/queue.rs:execute_job", "aj_core/src/queue.rs:cancel_job", "aj_core/src/queue.rs:retry_job", "aj_core/src/queue.rs:re_enqueue"]}
