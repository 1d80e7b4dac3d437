{"id": "C01", "title": "Memory store is a map from id to task, listed by (next run time, id)", "statement": "After any sequence of add_task / update_task / delete_task / remove_all_tasks / lookup_task / get_all_tasks calls on a MemoryStore, every answer is the one a plain finite map from task id to task would give: lookup returns the last version written for that id, adding a present id raises ConflictIdError and changes nothing, deleting an absent id raises TaskLookupError and changes nothing, and get_all_tasks returns every stored task exactly once, ordered by next run time then id with paused tasks last.", "quantifier": "every finite sequence of store operations, every set of ids and next run times (including equal times and paused tasks)", "why_tests_cant": "The store keeps a sorted list next to an id index and repairs it with a hand-written binary search; a drift between the two only shows after particular interleavings of equal-time inserts, updates and deletes, which no finite set of unit tests covers.", "anchors": ["asyncz/stores/memory.py:MemoryStore"]}
{"id": "C02", "title": "Memory store due query is exact and ordered", "statement": "For every store contents and every instant now, MemoryStore.get_due_tasks(now) returns exactly the tasks whose next run time is not None and <= now, in listing order, and get_next_run_time() is the least next run time of the non-paused tasks, or None when there is none.", "quantifier": "every store reached by any operation history, every instant now", "why_tests_cant": "The query stops at the first entry that is late; correctness depends on the ordering invariant holding in every reachable state, not in a few sample stores.", "anchors": ["asyncz/stores/memory.py:MemoryStore.get_due_tasks", "asyncz/stores/memory.py:MemoryStore.get_next_run_time"]}
{"id": "C03", "title": "All store back ends give the same answers", "statement": "For any sequence of store operations on tasks that can be serialised and restored, the SQLAlchemy, MongoDB, Redis and file stores give the same answers as the abstract id-to-task map: same conflicts, same lookup errors, same lookups, get_due_tasks(now) = exactly the non-paused tasks with next run time <= now in time order, get_next_run_time = minimum, and get_all_tasks lists the non-paused tasks in time order before the paused ones; a task that cannot be serialised is refused and nothing changes (SQLAlchemy, MongoDB, Redis).", "quantifier": "every history of operations, every task type and serialisation, every order in which the back end may return rows; Redis: non-empty ids and run times from 1970 to 9999-12-30; files: ids the store accepts", "why_tests_cant": "Each back end encodes order and pausing differently (NULL ordering, zset scores, fix-up loops); agreement must hold for every history, including unusual timestamps.", "anchors": ["asyncz/stores/sqlalchemy.py:SQLAlchemyStore", "asyncz/stores/mongo.py:MongoDBStore", "asyncz/stores/redis.py:RedisStore", "asyncz/stores/file.py:FileStore", "asyncz/stores/base.py:BaseStore.fix_paused_tasks"]}
{"id": "C04", "title": "Interval trigger fires on the grid, at the first grid point not in the past", "statement": "An IntervalTrigger whose interval d is a positive whole number of seconds and whose start is s, asked without a previous fire time at an instant now less than 2^51 microseconds (71 years) after s, answers the least time of the form s+k*d (k>=0) that is >= now; asked with previous fire time p it answers p+d; in both cases None exactly when that time is after end_at.", "quantifier": "every start, interval > 0, end, previous fire time and instant (microsecond resolution)", "why_tests_cant": "The computation uses a ceiling division of timedeltas; boundary behaviour (now exactly on the grid, now one microsecond after) ranges over an infinite domain.", "anchors": ["asyncz/triggers/interval.py:IntervalTrigger.get_next_trigger_time"]}
{"id": "C05", "title": "A date trigger fires exactly once", "statement": "A DateTrigger answers its run date when it has never fired and None ever after, so a date task is submitted at most once whatever the wake-up schedule.", "quantifier": "every run date, previous fire time, instant and wake-up schedule", "why_tests_cant": "At-most-once over every wake-up history is a statement about all schedules.", "anchors": ["asyncz/triggers/date.py:DateTrigger.get_next_trigger_time"]}
{"id": "C06", "title": "Jitter delays by at most the configured amount and never anticipates", "statement": "Whatever random value is drawn, the time returned by a trigger with jitter j lies between the un-jittered time and that time plus j seconds; with no jitter it is returned unchanged; and for interval and cron triggers with an end date the answer never exceeds the end date.", "quantifier": "every time, jitter, end date and every value of the random draw", "why_tests_cant": "Tests sample a handful of random draws; the bound must hold for all of them.", "anchors": ["asyncz/triggers/base.py:BaseTrigger.apply_jitter", "asyncz/triggers/interval.py:IntervalTrigger.get_next_trigger_time", "asyncz/triggers/cron/trigger.py:CronTrigger.get_next_trigger_time"]}
{"id": "C07", "title": "And-combination only fires when all its triggers agree", "statement": "Whenever AndTrigger (without jitter) answers a time t there is one instant at which every child trigger, asked with the same previous fire time, answers t; it answers None only when some child, asked at some instant, answers None.", "quantifier": "every list of child triggers, previous fire time and instant", "why_tests_cant": "The search loop has no bound; agreement and termination are statements about all inputs.", "anchors": ["asyncz/triggers/combination.py:AndTrigger.get_next_trigger_time"]}
{"id": "C08", "title": "Or-combination answers the earliest child time", "statement": "OrTrigger (without jitter) answers the minimum of the non-None answers of its children, None exactly when all children answer None, and is independent of the order of the children.", "quantifier": "every list of child triggers, previous fire time and instant", "why_tests_cant": "Quantifies over all child behaviours and all permutations.", "anchors": ["asyncz/triggers/combination.py:OrTrigger.get_next_trigger_time"]}
{"id": "C09", "title": "Cron trigger answers the least matching second", "statement": "For every CronTrigger, the answer to get_next_trigger_time(previous, now) without jitter is the least whole second t, not before the search start (now and start_at without previous, just after previous otherwise) such that year, month, day, ISO week, weekday, hour, minute and second of t all match their field expressions; it is None exactly when no such t exists up to year 9999 or the least one is after end_at.", "quantifier": "every cron expression accepted by the constructor, every previous fire time and instant, in a fixed-offset time zone", "why_tests_cant": "The search mixes carries, month lengths, leap years, ISO weeks and expression-specific day computations; a skipped or spurious match can sit anywhere in 8000 years times all expressions.", "anchors": ["asyncz/triggers/cron/trigger.py:CronTrigger.get_next_trigger_time", "asyncz/triggers/cron/trigger.py:CronTrigger.increment_field_value", "asyncz/triggers/cron/trigger.py:CronTrigger.set_field_value"]}
{"id": "C10", "title": "Cron field expressions compute the least admissible value", "statement": "For every field and every expression (*, */n, a, a-b, a-b/n, month and weekday names, 'nth weekday', 'last weekday', 'last', comma lists) the next value computed for a date is the least value >= the current one that satisfies the expression's documented meaning for that date, and None exactly when there is none in the field's range.", "quantifier": "every field, every well-formed expression, every date", "why_tests_cant": "Step arithmetic, month lengths and weekday positions interact; exhaustive over all dates is impossible by example.", "anchors": ["asyncz/triggers/cron/expressions.py", "asyncz/triggers/cron/fields.py:BaseField.get_next_value"]}
{"id": "C11", "title": "Cron search always terminates and makes progress", "statement": "get_next_trigger_time returns for every cron expression and every start instant (a date that never occurs, such as 31 February, gives None), and when now is not before previous the answer is strictly after previous.", "quantifier": "every cron expression, previous fire time and instant", "why_tests_cant": "The loop goes back to earlier fields on carry; termination is a statement about all inputs.", "anchors": ["asyncz/triggers/cron/trigger.py:CronTrigger.get_next_trigger_time"]}
{"id": "C12", "title": "Omitted cron fields get their documented defaults", "statement": "Fields left out of a CronTrigger that come after the least significant specified field default to their minimum (or * for week and weekday) and all other omitted fields default to *; from_crontab(m h d mo dow) equals the trigger with exactly those fields at second 0.", "quantifier": "every subset of specified fields and every value for them", "why_tests_cant": "2^8 subsets times all values.", "anchors": ["asyncz/triggers/cron/trigger.py:CronTrigger.__init__", "asyncz/triggers/cron/trigger.py:CronTrigger.from_crontab"]}
{"id": "C13", "title": "Run times handed out are exactly the trigger's fire times up to now", "statement": "The run times computed for a due task are its stored next run time followed by the successive trigger answers, all <= now, strictly in the order the trigger gives them, and the list is maximal; over any sequence of wake-ups at non-decreasing instants the concatenation of the lists is exactly the trigger's fire-time sequence up to the last wake-up, with nothing lost and nothing repeated.", "quantifier": "every interval/date/custom trigger that progresses, every first fire time, every non-decreasing wake-up sequence of any length", "why_tests_cant": "Loss or duplication depends on how wake-ups fall relative to the grid over an unbounded history.", "anchors": ["asyncz/tasks/base.py:Task.get_run_times", "asyncz/schedulers/base.py:BaseScheduler._process_tasks_of_store"]}
{"id": "C14", "title": "Coalescing keeps exactly the latest run", "statement": "If a task is coalescing, at most one run is submitted per wake-up, it is the latest due run time, and the number reported as coalesced is the number of due run times minus one; if it is not coalescing every due run time is submitted once.", "quantifier": "every non-empty list of due run times", "why_tests_cant": "Ranges over all backlogs.", "anchors": ["asyncz/schedulers/base.py:BaseScheduler._coalesce_run_times"]}
{"id": "C15", "title": "After a wake-up nothing that was due is left due", "statement": "After process_tasks at instant now, every un-jittered task (with a non-empty id) that was due in a readable store is left with the trigger's answer after its last fire time, later than now, or is removed when its trigger is exhausted or its executor does not exist; every other task is unchanged; with jitter the task still advances past its due run times. (Counterexamples shown: a jittered task can be left due, because its next time is drawn a second time; an exhausted task with the empty id is never removed and is run again at once, for ever.)", "quantifier": "every store contents, every trigger mix, every instant", "why_tests_cant": "A busy-looping or starved task appears only for particular mixes of backlog, exhausted triggers and failing submissions.", "anchors": ["asyncz/schedulers/base.py:BaseScheduler.process_tasks", "asyncz/schedulers/base.py:BaseScheduler._process_tasks_of_store"]}
{"id": "C16", "title": "The scheduler wakes up no later than the next due task", "statement": "The delay returned by process_tasks is non-negative, at most the maximal timer value, and not longer than the time to the earliest next run time in any processed store (so no stored task becomes due without a wake-up); it is None only when no task is scheduled and no lock path or failed store forces a retry.", "quantifier": "every collection of stores with every contents, including failing and locked ones", "why_tests_cant": "Minimum over arbitrary many stores and tasks after arbitrary updates.", "anchors": ["asyncz/schedulers/base.py:BaseScheduler.process_tasks"]}
{"id": "C17", "title": "Paused tasks and paused schedulers submit nothing", "statement": "A task whose next run time is None is never submitted by process_tasks, and while the scheduler is paused process_tasks submits nothing, changes no store and asks for no wake-up.", "quantifier": "every history and every instant", "why_tests_cant": "Never-claims range over all histories.", "anchors": ["asyncz/schedulers/base.py:BaseScheduler.process_tasks", "asyncz/schedulers/base.py:BaseScheduler.pause_task"]}
{"id": "C18", "title": "Maximum concurrent instances is never exceeded", "statement": "For any history of submissions and completions on an executor, the number of running instances of a task id never exceeds the max_instances in force at its last submission, a submission beyond the limit raises MaximumInstancesError without side effect, and the counter equals the number of submitted and not yet completed instances.", "quantifier": "every finite history of submissions, successes and failures, over all task ids and limits", "why_tests_cant": "The counter is a shared dictionary updated from callbacks in any order.", "anchors": ["asyncz/executors/base.py:BaseExecutor.send_task", "asyncz/executors/base.py:BaseExecutor.run_task_success", "asyncz/executors/base.py:BaseExecutor.run_task_error"]}
{"id": "C19", "title": "Instance accounting is race free", "statement": "When several threads submit and complete instances of the same task id concurrently on the executor that task uses, in every interleaving the running count never exceeds max_instances and ends at the number of unfinished instances.", "quantifier": "every number of threads and every interleaving of their atomic steps, all on one executor (instances of one id spread over two executors can exceed the limit: C19_two_executors_refuted)", "why_tests_cant": "Interleavings cannot be enumerated by tests.", "anchors": ["asyncz/executors/base.py:BaseExecutor.send_task", "asyncz/executors/base.py:BaseExecutor.start"]}
{"id": "C20", "title": "Every submitted run time yields exactly one outcome event", "statement": "For every run of a task with a list of run times, as long as the function returns or raises an ordinary Exception, exactly one event per run time is produced, in order: TASK_MISSED iff the run starts more than mistrigger_grace_time after its scheduled time (and then the function is not called), otherwise the function is called exactly once and TASK_EXECUTED with its return value or TASK_ERROR with its exception is produced; with grace time None nothing is ever missed; if a call leaves with another BaseException no event at all is produced.", "quantifier": "every list of run times, every clock reading, every grace time, every function behaviour", "why_tests_cant": "Quantifies over clocks, outcomes and backlog lengths.", "anchors": ["asyncz/executors/base.py:run_task", "asyncz/executors/base.py:run_coroutine_task"]}
{"id": "C21", "title": "Failures of one task never block the others", "statement": "In process_tasks, a task whose executor does not exist is removed, a task that reached its instance limit gets a TASK_MAX_INSTANCES event, a task whose submission raises is logged, and in all cases every other due task is still processed and the affected task (unless removed) still advances to its next run time.", "quantifier": "every mix of due tasks and per-task submission outcomes", "why_tests_cant": "All combinations of failures over any number of tasks.", "anchors": ["asyncz/schedulers/base.py:BaseScheduler._process_tasks_of_store"]}
{"id": "C22", "title": "A failing or locked store does not stop other stores", "statement": "If reading due tasks from one store raises or its lock cannot be taken, process_tasks still processes all other stores as if that store did not exist and asks to be woken up no later than the store retry interval.", "quantifier": "every set of stores and every subset of them failing", "why_tests_cant": "All subsets of failing stores.", "anchors": ["asyncz/schedulers/base.py:BaseScheduler.process_tasks"]}
{"id": "C23", "title": "Task updates are all-or-nothing and validated", "statement": "Task.update_task either raises and leaves every attribute of the task as it was, or applies exactly the given changes and nothing else; it never accepts a change of id, a non-positive max_instances, a non-positive grace time, an empty name, an unknown attribute or arguments that do not fit the callable.", "quantifier": "every task and every set of keyword changes, valid and invalid", "why_tests_cant": "All combinations of good and bad changes, in any order.", "anchors": ["asyncz/tasks/base.py:Task.update_task"]}
{"id": "C24", "title": "Argument checking agrees with Python calls", "statement": "check_callable_args (and so add_task and update_task) accepts a callable with given positional and keyword arguments exactly when calling it with them binds and no keyword has the name of a positional-only parameter left empty; otherwise it raises ValueError. So an accepted call binds, and a refused one fails to bind, except for a callable with a ** parameter given a keyword named like an empty positional-only parameter that has a default: that call would bind but is refused.", "quantifier": "every signature (positional-only, positional-or-keyword, keyword-only, *args, **kwargs, defaults) and every argument list", "why_tests_cant": "The signature space is infinite.", "anchors": ["asyncz/utils.py:check_callable_args"]}
{"id": "C25", "title": "A task survives persistence unchanged", "statement": "Saving a task to a durable store and loading it back gives a task with the same id, name, callable reference, arguments, trigger, executor, coalescing, limits and next run time, and whose trigger gives the same fire times as the original from then on.", "quantifier": "every storable task with every trigger kind", "why_tests_cant": "Round trip over all field values and trigger states.", "anchors": ["asyncz/tasks/base.py:Task.__getstate__", "asyncz/tasks/base.py:Task.__setstate__", "asyncz/triggers/interval.py:IntervalTrigger.__getstate__", "asyncz/triggers/cron/trigger.py:CronTrigger.__getstate__", "asyncz/triggers/shutdown.py", "asyncz/state.py"]}
{"id": "C26", "title": "Adding tasks: conflicts, replacement and first run time", "statement": "add_task on a running scheduler either stores the task under its id with its first run time (explicit, or the first trigger answer at now, or none), announces TASK_ADDED once and wakes the scheduler, or raises ConflictIdError leaving the store untouched; with replace_existing the stored definition is replaced in place and no duplicate appears.", "quantifier": "every store contents, id, trigger and option combination", "why_tests_cant": "All store histories.", "anchors": ["asyncz/schedulers/base.py:BaseScheduler.real_add_task", "asyncz/schedulers/base.py:BaseScheduler.add_task"]}
{"id": "C27", "title": "Tasks added before start are all installed at start", "statement": "Tasks added while the scheduler is stopped are visible through get_tasks as pending, touch no store, and when start returns are all present in their stores in the order added (the first of several with the same id wins unless replace_existing), each announced once, and no pending task is left.", "quantifier": "every list of pending tasks and every prior store contents", "why_tests_cant": "All lists and all id collisions.", "anchors": ["asyncz/schedulers/base.py:BaseScheduler.start", "asyncz/schedulers/base.py:BaseScheduler.add_task"]}
{"id": "C28", "title": "Start and shutdown are reference counted", "statement": "After any sequence of calls, with n = start calls minus shutdown calls made so far (calls that raised included): start with n >= 1 returns False and does nothing but count; with n <= 0 it starts a stopped scheduler (returning True, or raising and leaving it stopped) and raises AssertionError on a running one without effect. shutdown with n > 1 returns False and does nothing but count; with n <= 1 it stops a running scheduler and returns True, and raises SchedulerNotRunningError on a stopped one. No other call starts, stops or counts. Hence, if no shutdown comes without a start before it and no start of the stopped scheduler raises, it runs exactly while more starts than shutdowns have been made, and only the first start and the last shutdown have effects.", "quantifier": "every finite sequence of start/shutdown/pause/resume calls", "why_tests_cant": "All call sequences of any length.", "anchors": ["asyncz/schedulers/base.py:BaseScheduler.inc_refcount", "asyncz/schedulers/base.py:BaseScheduler.decr_refcount", "asyncz/schedulers/base.py:BaseScheduler.start", "asyncz/schedulers/base.py:BaseScheduler.shutdown"]}
{"id": "C29", "title": "Shutdown runs shutdown tasks exactly once and stops everything", "statement": "The final shutdown runs each stored shutdown-trigger task exactly once and removes it, shuts down every executor and store once, announces SCHEDULER_SHUTDOWN, and afterwards operations requiring a running scheduler raise SchedulerNotRunningError.", "quantifier": "every set of stores, executors and tasks", "why_tests_cant": "All scheduler configurations.", "anchors": ["asyncz/schedulers/base.py:BaseScheduler.shutdown"]}
{"id": "C30", "title": "Pause/resume of a scheduler are idempotent and announced once", "statement": "pause and resume on a running scheduler switch between RUNNING and PAUSED, announce the change exactly when there is one, resume re-arms the timer, and both raise SchedulerNotRunningError and change nothing when stopped.", "quantifier": "every sequence of calls", "why_tests_cant": "All call sequences.", "anchors": ["asyncz/schedulers/base.py:BaseScheduler.pause", "asyncz/schedulers/base.py:BaseScheduler.resume"]}
{"id": "C31", "title": "Resuming or rescheduling a task computes the next run from now", "statement": "On a started scheduler resume_task and reschedule_task set the next run time to the trigger's first answer at now; when the trigger has no more fire time resume_task removes the task; no other task is affected.", "quantifier": "every task, trigger and store contents", "why_tests_cant": "All trigger states.", "anchors": ["asyncz/schedulers/base.py:BaseScheduler.resume_task", "asyncz/schedulers/base.py:BaseScheduler.reschedule_task"]}
{"id": "C32", "title": "Running a task on demand", "statement": "run_task submits the due run times (or now when forced and none is due), advances the task to a time strictly after now or removes it when finished and remove_finished is set, raises MaximumInstancesError without changing the task when the limit is reached, and does nothing when nothing is due and force is false.", "quantifier": "every task state, trigger and option combination", "why_tests_cant": "All states and options.", "anchors": ["asyncz/schedulers/base.py:BaseScheduler.run_task"]}
{"id": "C33", "title": "Deleting a task", "statement": "delete_task of a non-empty id removes the task from exactly one store (or the pending list when stopped), announces TASK_REMOVED once with the alias it was found in, leaves every other task untouched and raises TaskLookupError when it is nowhere.", "quantifier": "every set of stores and pending tasks", "why_tests_cant": "All configurations, same id in several stores included.", "anchors": ["asyncz/schedulers/base.py:BaseScheduler.delete_task"]}
{"id": "C34", "title": "Previews are read-only, increasing and truthful", "statement": "preview_task_runs returns at most count times, each strictly later than the one before for progressing triggers, starting with the stored next run time, equal to the run times the scheduler would later submit for an un-jittered interval/date trigger, changes nothing, and rejects counts outside 1..50.", "quantifier": "every task, count and trigger", "why_tests_cant": "All triggers and counts.", "anchors": ["asyncz/schedulers/base.py:BaseScheduler.preview_task_runs"]}
{"id": "C35", "title": "Task listings are complete, filtered and stably sorted", "statement": "get_task_infos returns exactly the tasks satisfying all given filters, each once, sorted by the requested key, and get_scheduler_info's counts add up to the number of tasks.", "quantifier": "every set of tasks, filters and sort options", "why_tests_cant": "All task sets.", "anchors": ["asyncz/schedulers/base.py:BaseScheduler.get_task_infos", "asyncz/schedulers/base.py:BaseScheduler.get_scheduler_info", "asyncz/tasks/types.py:TaskType.schedule_state"]}
{"id": "C36", "title": "Events reach exactly the listeners registered for them", "statement": "Dispatching an event calls each registered listener whose (integer) mask shares a bit with the event's code exactly once per registration, in registration order, with the same event; a listener that raises, adds or removes listeners, or dispatches further events during the call does not affect the delivery to the others. Adding appends a registration, removing a listener removes its first registration only (answering whether there was one), distinct event kinds share no bit and the default mask selects every kind.", "quantifier": "every listener list, every mask, every subset of raising listeners", "why_tests_cant": "All subsets and re-entrant modifications.", "anchors": ["asyncz/schedulers/base.py:BaseScheduler.dispatch_event", "asyncz/schedulers/base.py:BaseScheduler.add_listener", "asyncz/schedulers/base.py:BaseScheduler.remove_listener", "asyncz/events/constants.py"]}
{"id": "C37", "title": "Executor and store registration", "statement": "add_executor and add_store under an existing alias raise and change nothing, otherwise add exactly that alias and announce it once; removing an unknown alias raises KeyError-like lookup errors and changes nothing; as long as no start call raises, a store or executor is started exactly once while the scheduler is running.", "quantifier": "every registration history", "why_tests_cant": "All histories.", "anchors": ["asyncz/schedulers/base.py:BaseScheduler.add_executor", "asyncz/schedulers/base.py:BaseScheduler.remove_executor", "asyncz/schedulers/base.py:BaseScheduler.add_store", "asyncz/schedulers/base.py:BaseScheduler.remove_store"]}
{"id": "C38", "title": "At most one pending timer", "statement": "Whatever sequence of wake-ups, pauses, resumes and shutdowns happens, the asyncio scheduler has at most one armed timer and it is the one asked for by the latest processing; when the shutdown has run none remains, and none is armed and nothing submitted until it is started again, unless a wake-up was already queued behind the shutdown.", "quantifier": "every sequence of timer operations", "why_tests_cant": "All sequences.", "anchors": ["asyncz/schedulers/asyncio.py:AsyncIOScheduler.start_timer", "asyncz/schedulers/asyncio.py:AsyncIOScheduler.stop_timer", "asyncz/schedulers/asyncio.py:AsyncIOScheduler.wakeup"]}
{"id": "C39", "title": "Encrypted task state round-trips and is rejected when altered", "statement": "With an encryption key set, what a store writes decrypts to exactly the pickled state, data written with another key or altered is rejected, and without a key the bytes are stored verbatim.", "quantifier": "every state and every nonce, for an authenticated cipher satisfying its contract", "why_tests_cant": "All byte strings and nonces.", "anchors": ["asyncz/stores/base.py:BaseStore.conditional_encrypt", "asyncz/stores/base.py:BaseStore.conditional_decrypt", "asyncz/stores/base.py:BaseStore.serialize_task_state", "asyncz/stores/base.py:BaseStore.deserialize_task_state"]}
{"id": "C40", "title": "File store survives a crash at any point", "statement": "If the process dies at any point of a file-store operation, on restart every task not being written is intact and the task being written is found either in its old or its new version.", "quantifier": "every operation history and every crash point inside an operation", "why_tests_cant": "Crash points between system calls cannot be injected exhaustively.", "anchors": ["asyncz/stores/file.py:FileStore.add_task", "asyncz/stores/file.py:FileStore.update_task", "asyncz/stores/file.py:FileStore.lookup_task"]}
{"id": "C41", "title": "File store readers never destroy a task being written", "statement": "While one process updates a task in a file store, any reader in another process sees the old or the new version and never deletes it.", "quantifier": "every interleaving of the system calls of a writer and readers", "why_tests_cant": "Interleavings of buffered writes, locks and closes.", "anchors": ["asyncz/stores/file.py:FileStore.update_task", "asyncz/stores/file.py:FileStore.lookup_task", "asyncz/file_locking.py:with_lock"]}
{"id": "C42", "title": "File store ids cannot escape the store directory", "statement": "Whatever task id is given, every file the store opens, creates or removes lies directly inside its directory, and distinct ids use distinct files.", "quantifier": "every string used as task id", "why_tests_cant": "All strings.", "anchors": ["asyncz/stores/file.py:FileStore.check_task_id", "asyncz/stores/file.py:FileStore.get_task_path"]}
{"id": "C43", "title": "The processing lock is exclusive and always released", "statement": "At most one process holds the store processing lock for a lock path at a time, whatever the interleaving of acquire, release and shutdown calls, and the lock is released on every exit from the protected block including exceptions.", "quantifier": "every interleaving of processes, every exit path", "why_tests_cant": "Interleavings and exception exits.", "anchors": ["asyncz/locks.py:LockProtected.protected", "asyncz/locks.py:FileLockProtected", "asyncz/file_locking.py"]}
{"id": "C44", "title": "Dashboard log, audit and event stores keep exactly the newest entries", "statement": "After any sequence of appends, queries and clears, a bounded dashboard store (logs, audit trail, scheduler events) holds exactly the newest N entries appended since the last clear; a query for at least one entry returns exactly the entries matching all its filters, newest first, truncated to its limit; queries change nothing and the summary counts what is held.", "quantifier": "every capacity, every sequence of calls, every filter and every limit of at least 1", "why_tests_cant": "All histories.", "anchors": ["asyncz/contrib/dashboard/logs/storage.py:MemoryLogStorage", "asyncz/contrib/dashboard/audit.py", "asyncz/contrib/dashboard/events.py"]}
{"id": "C45", "title": "Run history keeps one record per run and never loses a final status", "statement": "For every sequence of submission and execution events, the history holds at most its capacity of records, one per run, a finished record is never turned back to submitted by a late submission event, and lookups never fail.", "quantifier": "every event sequence in any order, every id and store name", "why_tests_cant": "Event reordering over all histories.", "anchors": ["asyncz/contrib/dashboard/history.py"]}
{"id": "C46", "title": "Pagination partitions the listing", "statement": "For every list and page size the pages concatenate to the list, every page except the last is full, an out-of-range page number is clamped, and page and page-size parameters outside their bounds are clamped or defaulted.", "quantifier": "every list length, page size and requested page", "why_tests_cant": "All sizes and pages.", "anchors": ["asyncz/contrib/dashboard/controllers/_helpers.py:_paginate_task_infos", "asyncz/contrib/dashboard/controllers/_helpers.py:_bounded_int"]}
{"id": "C47", "title": "Bulk-id parsing yields each requested id once, in order", "statement": "The list of ids extracted from a bulk request contains every non-empty id given in any of the supported encodings, without duplicates, in order of first occurrence, and nothing else.", "quantifier": "every form payload", "why_tests_cant": "All payloads.", "anchors": ["asyncz/contrib/dashboard/controllers/_helpers.py:parse_ids_from_request_form"]}
{"id": "C48", "title": "Shape registry resolution", "statement": "Registering a shape makes it resolvable by its name and version and never silently replaces another, unregistering removes exactly that one, available lists exactly the registered ones, and resolving an unknown shape raises.", "quantifier": "every registration history", "why_tests_cant": "All histories.", "anchors": ["asyncz/shapes/registry.py"]}
{"id": "C49", "title": "Command-line options mean what they say", "statement": "A list of executor or store options is accepted exactly when every option is of the documented form (alias=type, alias=type:workers; memory, durable=URL, ...); it yields one entry per alias, in order of first appearance, holding what the last option of that alias says. A duration is accepted exactly when it is a number followed by s, m or h in either case. Exactly one non-empty value of --cron, --interval and --at must be given and it alone decides the trigger. The watch mode asks for a reload exactly when a watched file is missing or has another modification time than at the last look. Everything else is refused with a ValueError.", "quantifier": "every list of option strings, every text, every file system state", "why_tests_cant": "All strings and all lists of options.", "anchors": ["asyncz/cli/_parsers.py:parse_store_option", "asyncz/cli/utils.py:parse_executor", "asyncz/cli/utils.py:build_executors_map", "asyncz/cli/utils.py:build_stores_map", "asyncz/cli/utils.py:changed", "asyncz/cli/types.py:parse_interval", "asyncz/cli/types.py:parse_trigger"]}
{"id": "C50", "title": "Remote control requires its token", "statement": "When a token is configured, a request that does not carry it in the token header - whatever its method, path, other headers, query and body - leaves the scheduler untouched, makes no call on it and unpickles nothing; it is answered 401 (or \"no such route\"). A client with another token, or none, gets that refusal as an error.", "quantifier": "every request, every scheduler state and behaviour, every token", "why_tests_cant": "All requests and header forms.", "anchors": ["asyncz/contrib/dashboard/remote.py:_require_token", "asyncz/contrib/dashboard/remote.py:create_remote_scheduler_app"]}
{"id": "C51", "title": "Date-time conversion and rounding", "statement": "to_datetime on a non-empty string accepts exactly the texts YYYY-M-D or YYYY-M-D{space|T}H:M:S[.digits][Z|+HH:MM|-HH:MM] (one trailing newline tolerated) that name a real calendar day and time of day and an offset under 24 hours; the answer has exactly the fields written and the zone written, or the caller's zone when none is written; the digits after the point are taken as a count of microseconds. A text of another form, or a naive one without a zone when one is required, is a type error; a day, time or offset that does not exist is a value error. datetime_ceil returns the least whole second not before its argument.", "quantifier": "every instant and every string", "why_tests_cant": "Infinite domain.", "anchors": ["asyncz/utils.py:datetime_ceil", "asyncz/utils.py:to_datetime"]}
{"id": "C52", "title": "The first fire time of a combination is the first instant it is scheduled for", "statement": "For every nesting of interval, cron, and-, or- and shutdown triggers without jitter, the answer without a previous fire time is the first instant from now on that belongs to the schedule (grid for interval, matching seconds for cron, union for or, intersection for and); an and-combination of triggers that have a common fire time does return it.", "quantifier": "all trigger trees, all instants, all horizons up to 35 years after the interval starts", "why_tests_cant": "infinitely many trees and schedules; the and-search is an unbounded loop", "anchors": ["asyncz/triggers/combination.py:AndTrigger.get_next_trigger_time", "asyncz/triggers/combination.py:OrTrigger.get_next_trigger_time", "asyncz/triggers/interval.py:IntervalTrigger.get_next_trigger_time", "asyncz/triggers/cron/trigger.py:CronTrigger.get_next_trigger_time"]}
{"id": "C53", "title": "What a trigger answers after it has fired", "statement": "Having fired at p, a trigger of any nesting (no jitter, intervals positive) answers, whatever the clock says from p on: a date or shutdown trigger nothing; an interval p plus the interval, if not after its end; a cron trigger its first matching second after p up to its end; an or-combination the earliest answer of its parts; an and-combination the time all parts answer, or nothing if a part has nothing. For combinations of cron triggers without a start this is the next scheduled instant. For or-combinations of intervals or dates it is not: an interval counts from any part's fire, and a date is lost once another part has fired.", "quantifier": "all trigger trees, all previous fire times and instants", "why_tests_cant": "unbounded sequences of fire times", "anchors": ["asyncz/triggers/combination.py:OrTrigger.get_next_trigger_time", "asyncz/triggers/interval.py:IntervalTrigger.get_next_trigger_time"]}
{"id": "C54", "title": "When an and-combination returns", "statement": "Asked again after a fire, a combination either answers at once or never: an and-combination whose parts answer returns exactly if one of its parts is over or all parts give the same next time; otherwise the call never returns, and the scheduler's loop is stuck in it. A date off an interval's grid hangs it on the very first question.", "quantifier": "all child lists, previous fire times, instants, numbers of iterations", "why_tests_cant": "non-termination is not observable by a test", "anchors": ["asyncz/triggers/combination.py:AndTrigger.get_next_trigger_time"]}
{"id": "C55", "title": "Fire times strictly increase and do not depend on when they are asked for", "statement": "For every trigger built from date, positive interval, cron, and-, or-combinations with any non-negative jitter: the answer after a previous fire time p, asked at any instant not before p, is strictly later than p, and (for the same random draws) is the same whenever it is asked.", "quantifier": "all trigger trees, random draws, previous fire times and instants", "why_tests_cant": "all trees, instants and draws", "anchors": ["asyncz/triggers/base.py:BaseTrigger.apply_jitter", "asyncz/triggers/combination.py", "asyncz/triggers/interval.py", "asyncz/triggers/cron/trigger.py"]}
{"id": "C56", "title": "Updating or pausing a task through the scheduler", "statement": "update_task and pause_task apply exactly the given changes to the one task they name, announce TASK_MODIFIED exactly once and wake a running scheduler exactly once; a refused update changes nothing; the same holds for a task still pending in a stopped scheduler.", "quantifier": "every reachable scheduler state, every task and every set of changes", "why_tests_cant": "Quantifies over all scheduler histories and all change sets.", "anchors": ["asyncz/schedulers/base.py:BaseScheduler.update_task", "asyncz/schedulers/base.py:BaseScheduler.pause_task"]}
{"id": "C57", "title": "A running scheduler never oversleeps", "statement": "Whenever the asyncio scheduler is running and its last processing did not raise, either a wake-up is already queued or the armed timer expires no later than the next run time of every stored task that has not been run by force (run_task(force=True)) since that processing (or now, if that time has passed; at most the retry interval later for a store that could not be read). A forced task is covered again from the next processing on.", "quantifier": "every sequence of public calls from anywhere, timer expiries and event-loop steps, in any interleaving", "why_tests_cant": "The timer is recomputed by a chain of wake-ups triggered by unrelated calls; a single call that changes a next run time without waking the loop makes a task wait forever, which only shows in particular interleavings.", "anchors": ["asyncz/schedulers/asyncio.py:AsyncIOScheduler.wakeup", "asyncz/schedulers/asyncio.py:AsyncIOScheduler.start_timer", "asyncz/schedulers/base.py:BaseScheduler.process_tasks", "asyncz/schedulers/base.py:BaseScheduler.run_task"]}
{"id": "C58", "title": "Cron text means what it says", "statement": "A cron field accepts *, */n, a, a-b, a/n, a-b/n (and month names, weekday names, \"xth weekday\", \"last\" where the field has them, in any letter case), singly or in comma lists with arbitrary blanks around the commas, exactly when the numbers lie in the limits of the field, in order, and the step fits; it then means exactly that set of values. Besides these exactly the texts described in accepted_text are accepted (names followed by arbitrary further text, a newline after a number, an upper end of 0 counting as absent); every other text is refused with ValueError.", "quantifier": "every field, every text", "why_tests_cant": "Infinitely many texts; the acceptance conditions interact (limits, order, steps, alternatives tried in turn).", "anchors": ["asyncz/triggers/cron/expressions.py:AllExpression", "asyncz/triggers/cron/expressions.py:RangeExpression", "asyncz/triggers/cron/expressions.py:MonthRangeExpression", "asyncz/triggers/cron/expressions.py:WeekdayRangeExpression", "asyncz/triggers/cron/expressions.py:WeekdayPositionExpression", "asyncz/triggers/cron/fields.py:BaseField.compile_expressions"]}
{"id": "C59", "title": "Trigger forms mean what they say", "statement": "A dashboard trigger form of type interval is accepted exactly when its value is an integer with an optional unit s, m or h, and yields that many seconds, minutes or hours (one second for zero); a cron form exactly when it has five fields, and yields the trigger a crontab line with the same text yields; a date form is read as an ISO date whose offset sign may have been decoded to a blank; every other form is refused with ValueError.", "quantifier": "every form type and value text", "why_tests_cant": "Infinite domain of texts, including spacing, signs, underscores and unit letters.", "anchors": ["asyncz/contrib/dashboard/controllers/_helpers.py:parse_trigger_config", "asyncz/contrib/dashboard/controllers/_helpers.py:parse_trigger"]}
{"id": "C60", "title": "Dumping a record keeps its data and yields plain values", "statement": "Dumping any value built from records, mappings and sequences gives the same atoms in the same places and order with every record turned into a mapping; with exclude_none exactly the mapping entries whose value is None are left out, at every depth; a value that is plain already is returned unchanged.", "quantifier": "every nested value of any depth and width, both settings of exclude_none, every foreign model dump", "why_tests_cant": "Ranges over arbitrarily nested data; tests use a few shallow records.", "anchors": ["asyncz/shapes/base.py:dump_plain"]}
{"id": "C61", "title": "A remote call is the local call", "statement": "Through the remote client, every inspection and control call (other than adding a task) about a task whose id is not empty and contains no \"/\" makes on the worker's scheduler exactly the call the same code would make locally - once, with the same task id, store and arguments (the time a preview may name is ignored: it starts now) - and returns what it returned; TaskLookupError, SchedulerNotRunningError, MaximumInstancesError and ValueError come back as the same exceptions, others as RemoteSchedulerError with the same text, and failures of the reading calls as a protocol error. A call about an id that is empty or contains \"/\" never reaches that task.", "quantifier": "every call, every id, every scheduler state and behaviour", "why_tests_cant": "All ids (percent encoding, routing), all outcomes.", "anchors": ["asyncz/contrib/dashboard/remote.py:RemoteSchedulerClient", "asyncz/contrib/dashboard/remote.py:create_remote_scheduler_app"]}
{"id": "C62", "title": "Adding a task remotely adds the same task", "statement": "Adding a task through the remote client makes the worker add the task that the same local call would add - same callable, trigger, arguments and options - were the options mistrigger_grace_time, coalesce, max_instances and next_run_time left out where they are given as None; and brings back its result or exception.", "quantifier": "every combination of given, omitted and None options", "why_tests_cant": "All option combinations.", "anchors": ["asyncz/contrib/dashboard/remote.py:RemoteSchedulerClient.add_task", "asyncz/contrib/dashboard/remote.py:create_remote_scheduler_app"]}
{"id": "C63", "title": "Catching up ends, with the right runs", "statement": "A wake-up that comes late makes up for exactly the runs of an interval schedule that are due, and comes to an end however late it is, for every positive interval. (A negative interval is accepted by the constructor, and the computation then does not end.)", "quantifier": "every interval, next run time, end, and instant of the wake-up", "why_tests_cant": "Unbounded lateness and every interval; non-termination is not observable by a test that passes.", "anchors": ["asyncz/tasks/base.py: get_run_times", "asyncz/triggers/interval.py: IntervalTrigger.__init__, get_next_trigger_time"]}
{"id": "C64", "title": "Loading jobs from a module or a file", "statement": "Loading a registry module or a YAML/JSON file adds one task per entry, with that entry's function, name, trigger and arguments, in order, and answers how many were added; an entry that cannot be used raises.", "quantifier": "all lists of entries, all scheduler states", "why_tests_cant": "every list of entries and every state; the defect is that no entry at all works, which the tests (which mock Task) cannot see", "anchors": ["asyncz/cli/loader.py: load_jobs_from_module, load_jobs_from_config", "asyncz/tasks/base.py: Task.__init__, Task.update_task"]}
{"id": "C65", "title": "Cron schedules survive clock changes", "statement": "In a time zone whose clock is put forward and back, a cron trigger fires at every instant at which the zone's clock shows a matching second, and at no other; it never answers with an instant before the one it was asked from.", "quantifier": "every cron specification, every zone whose clock changes do not overlap and skip one whole hour at a time, every now/previous/start/end", "why_tests_cant": "Clock changes are two hours a year, in every zone, combined with every specification and asking instant; tests run in one zone on one date.", "anchors": ["asyncz/triggers/cron/trigger.py: CronTrigger.get_next_trigger_time, increment_field_value, set_field_value", "asyncz/utils.py: normalize, localize, datetime_ceil"]}
{"id": "C66", "title": "Intervals across clock changes are counted on the clock", "statement": "In a time zone whose clock changes, the next run of an interval trigger is the instant when the clock comes to show the previous run's reading plus one interval, which is exactly one interval later when the clock is not changed in between; end_at is compared by clock readings too; the first run is the first grid reading of the clock from now on, never in the past when asked outside a repeated hour.", "quantifier": "every zone, interval, start, end, previous fire and now", "why_tests_cant": "The failure only shows around a clock change, for particular combinations of previous fire and interval.", "anchors": ["asyncz/triggers/interval.py: IntervalTrigger.get_next_trigger_time", "asyncz/utils.py: normalize"]}
{"id": "C67", "title": "Woken in time across clock changes", "statement": "After processing, the scheduler asks to be woken after the time that is left on its zone's clock until the next run time (nothing if that has passed, at most the longest timer): exactly at the run time when the clock is not changed in between, early when it is put back, and late by exactly the change when it is put forward.", "quantifier": "every zone, next run time, present instant", "why_tests_cant": "Depends on a clock change happening between now and the next run.", "anchors": ["asyncz/schedulers/base.py: process_tasks (wait_seconds)"]}
{"id": "C68", "title": "The zone of a trigger", "statement": "A trigger's start, end and cron fields are read in the zone asked for, else in that of a start or end given with a zone, else in the scheduler's; an interval trigger without a start starts one interval after it was made - shifted by the difference between the machine's zone and the scheduler's when the trigger has no zone of its own - and first runs at the first point of that grid from then on.", "quantifier": "every combination of zones, starts and ends given as datetimes or texts, with or without zone, and every local zone of the machine", "why_tests_cant": "The failing cases depend on the zone of the machine running the tests.", "anchors": ["asyncz/triggers/interval.py: IntervalTrigger.__init__, get_next_trigger_time", "asyncz/triggers/cron/trigger.py: CronTrigger.__init__", "asyncz/utils.py: to_datetime, localize"]}
{"id": "C69", "title": "Adding a function adds the task its arguments describe", "statement": "When add_task(callable_or_reference, ...) returns a task, exactly one task was added: its id is the given one or a fresh one, its trigger, callable, arguments, name, coalescing, instance limit, grace time, executor, store and first run time are those given, and each one that was not given comes from the scheduler's task_defaults (grace time: a default of None counts as unset and gives one second; name: the callable's name; aliases: \"default\"; first run time: the trigger's first answer; explicit None: paused). When it raises, nothing was added or changed, and either an argument was unacceptable, the id was taken, the store unknown, or the trigger raised.", "quantifier": "all combinations of arguments and defaults, all callables and references, all reachable scheduler states (stopped, running, paused)", "why_tests_cant": "ten optional arguments with three sources of defaults each; tests fix a handful of combinations", "anchors": ["asyncz/schedulers/base.py: BaseScheduler.add_task", "asyncz/schedulers/datastructures.py: TaskDefaultStruct", "asyncz/tasks/base.py: Task.__init__, Task.update_task"]}
{"id": "C70", "title": "Decorating a function is adding it", "statement": "add_task(...) without a callable changes nothing and returns a definition; applying it to a function, at any later moment and any number of times, has exactly the effect (and raises exactly the error) of add_task(function, ...) with the arguments the definition remembers, and returns the function. It remembers all of them, except that next_run_time=None counts as not given (the task is scheduled, not paused), an empty id as none, and replace_existing is true exactly when an id was given; the function's asyncz_tasks lists the new task exactly when no id was given. A Task object made without a scheduler raises when used as a decorator.", "quantifier": "all arguments, defaults, functions, scheduler states at definition and at application", "why_tests_cant": "the definition is copied through a different code path than direct adding; equality must hold for every option and state", "anchors": ["asyncz/tasks/base.py: Task.__call__, Task.__init__", "asyncz/schedulers/base.py: BaseScheduler.add_task"]}
{"id": "C71", "title": "Dotted configuration keys", "statement": "Scheduler(global_config, prefix, **options) and setup(...) put every key \"prefix + a.b.c\" of a global configuration in which no key lies under another at the place config[\"a\"][\"b\"][\"c\"]; keyword options replace whole top-level entries; keys without the prefix have no effect; the order of the keys does not matter. A scheduler that is not stopped refuses with SchedulerAlreadyRunningError and is left alone.", "quantifier": "all global configurations, prefixes, keyword options, orders of the keys", "why_tests_cant": "all nestings of keys, orders and prefixes; tests use one flat dictionary", "anchors": ["asyncz/schedulers/base.py: BaseScheduler.setup"]}
{"id": "C72", "title": "Executors and stores are configured as described", "statement": "Configuring executors (stores) succeeds exactly when every entry is an executor (store) object or a dictionary whose \"type\" names a known plugin, or else whose \"class\" names a class or a reference, of the right kind and taking the remaining options. Then exactly the configured aliases exist, in order, each holding the object given or one built from that class with exactly the other options. Otherwise the first bad entry raises; the entries before it are registered, the ones of an earlier configuration are gone, and a bad executor leaves the stores alone. Adding one by plugin alias registers exactly the plugin's class with the given options under a free alias, a class of the wrong kind being refused when it is first imported (and no longer afterwards); a refusal registers nothing.", "quantifier": "all configuration dictionaries, plugin tables, importable classes, earlier configurations", "why_tests_cant": "all combinations of entries, aliases and earlier plugin loads; the class cache carries state between calls", "anchors": ["asyncz/schedulers/base.py: BaseScheduler._setup, add_executor, add_store, create_plugin_instance, resolve_load_plugin"]}
{"id": "C73", "title": "The update command shows and makes the asked change", "statement": "asyncz update shows exactly the differences between the task and the task with the given options applied; it changes nothing if it refuses, on a dry run, when declined or when nothing differs in the sense of ==; otherwise the task is replaced, in its store, by exactly what was shown: the given name, callable, arguments, executor, coalescing, limit and grace time (clearing wins over a value), everything else including trigger, next run time and the other tasks staying as it was, with one TASK_MODIFIED event. It refuses only without options, for an unreadable option, an unknown task, an invalid value, or when declined.", "quantifier": "all option combinations and texts, all tasks, all reachable scheduler states", "why_tests_cant": "nine options in any combination on any task; tests exercise a few", "anchors": ["asyncz/cli/commands/update.py: update, _parse_coalesce, _task_update_snapshot, _build_diff", "asyncz/schedulers/base.py: BaseScheduler.update_task"]}
{"id": "C74", "title": "One scheduler per bootstrap path", "statement": "Loading a bootstrap path answers a scheduler that the class, object or function named by the path gave; later loads of the path answer the same one until the cache is cleared; a failed load is not remembered: the next one asks again.", "quantifier": "all histories of loads and clears, all import results changing over time", "why_tests_cant": "all interleavings of loads, failures and clears", "anchors": ["asyncz/cli/bootstrap_loader.py: load_bootstrap_scheduler, clear_bootstrap_cache"]}
{"id": "C75", "title": "A saved task makes the same call", "statement": "A task whose callable has a textual name (module function, class, static, class or bound method) can be saved, and when loaded calls the same function with the same arguments, the object of a bound method included; one whose callable has none (lambda, nested function, partial) is refused when saved. A task given by reference keeps that reference and loads the object it names.", "quantifier": "all callables in all object graphs, all arguments", "why_tests_cant": "depends on how names, classes, objects and attributes of arbitrary programs relate; tests use module functions", "anchors": ["asyncz/utils.py: get_callable_name, obj_to_ref, ref_to_obj", "asyncz/tasks/base.py: Task.update_task, Task.__getstate__, Task.__setstate__"]}
{"id": "C76", "title": "Who gets past the dashboard's gate", "statement": "With login enabled, a request reaches the dashboard iff it is not an HTTP request, or its path (relative to the mount point) is one of the open paths or lies below one, or the session belongs to a user; any other request is answered with a redirect (303, or 401 with HX-Redirect for HTMX) to mount point + login path + ?next= + the requested path. For a dashboard whose prefix neither covers nor lies below an open path, every page other than its static files and assets needs a login. Whatever the history of logins and logouts, the session belongs to the user of the last successful login unless a logout came after it; failed logins and other visits change nothing, nor any other entry of the session; after a login the browser is sent to a page of this dashboard.", "quantifier": "all open-path lists, prefixes, mount points, paths, requests, credential checkers, users and histories of logins, logouts and other visits", "why_tests_cant": "Paths, prefixes and visit histories are unbounded; a gap in the gate is one odd path away.", "anchors": ["asyncz/contrib/dashboard/admin/middleware/auth_gate.py: AuthGateMiddleware.__call__", "asyncz/contrib/dashboard/admin/backends.py: SimpleUsernamePasswordBackend", "asyncz/contrib/dashboard/admin/core.py: AsynczAdmin.auth_gate_middleware"]}
{"id": "C77", "title": "Prefixes behind a proxy, and security headers", "statement": "A prefix may be written with space around it, without its leading slash or with trailing slashes: the dashboard uses the form with a leading and no trailing slash. X-Forwarded-Prefix changes the external root only for trusted clients (listed, in a listed network, or all with \"*\"), then the external root is that prefix followed by the existing root; the last header of that name counts; a blank prefix or / changes nothing. Links carry the external prefix followed by the configured one, once if the external prefix already ends with it; without a proxy the configured one, or the mount point if none is configured. The mount point of the dashboard is the given or configured prefix without trailing slashes. Every response carries each security header exactly as configured unless the application already set one of that name; the application's own headers are kept, and HSTS is added over https only.", "quantifier": "all prefixes, headers, trusted lists, clients, roots and response headers", "why_tests_cant": "Quantifies over all texts and header lists.", "anchors": ["asyncz/contrib/dashboard/config.py: _normalize_prefix, _combine_prefixes, get_effective_prefix", "asyncz/contrib/dashboard/admin/middleware/forward_root_path.py: ForwardedPrefixMiddleware", "asyncz/contrib/dashboard/admin/middleware/security_headers.py: SecurityHeadersMiddleware", "asyncz/contrib/dashboard/admin/core.py: AsynczAdmin.__init__"]}
{"id": "C78", "title": "The worker's HTTP API: each request is one call on the scheduler, answered by its outcome", "statement": "An authorised request to the remote worker app either asks for exactly one call on the scheduler (GET /info, /instances, /tasks with its filters, POST /tasks, GET or PATCH /tasks/{id}, GET /tasks/{id}/preview, POST /tasks/{id}/run|pause|resume|remove, with documented defaults: sort_by next_run_time, count 5, force and remove_finished true, empty parameters are absent), which is then made once with those arguments, and is answered with 200 {\"data\": ...}, 404 for an unknown task, 409 when the scheduler is stopped or the task is at its instance limit, 400 for another failure, each with the class and text of the exception; or asks for no call, and is refused with nothing called, unpickled or changed. The call asked for is determined by the request.", "quantifier": "all methods, percent-encoded paths, headers, queries and JSON bodies; all scheduler states and all outcomes of the call", "why_tests_cant": "paths, query strings and payloads are unbounded and every scheduler call may return or raise anything", "anchors": ["asyncz/contrib/dashboard/remote.py: create_remote_scheduler_app, _success, _error, _json_body, _require_token"]}
{"id": "C79", "title": "The dashboard's edit page shows what it will do, does what it showed, and records it", "statement": "Posting the edit form of a task: an unknown task is answered 404 and recorded as failed; if a field is bad (blank executor, callable or name where there was one, arguments not a JSON list, keyword arguments not a JSON object, coalesce not a yes/no word, instances not a positive number, grace time not a positive number of seconds) or the task refuses the change, nothing changes, the page is 400 naming exactly the bad fields and a failure is recorded; otherwise the page shows exactly the fields that would change with old and new value, and only with intent apply and a non-empty difference is the task - and nothing else of the scheduler - replaced by exactly the task shown, recorded as succeeded. Nothing changes unless it is recorded. Opening the page and posting it back unchanged does nothing.", "quantifier": "all forms, task ids and reachable scheduler states, all task contents, every behaviour of the JSON reader and writer", "why_tests_cant": "forms are unbounded text in eight fields that interact with the stored task, and previews must agree with updates on every task", "anchors": ["asyncz/contrib/dashboard/controllers/tasks.py: _parse_task_update_form, _build_task_update_preview, TaskEditController.get, post, _task_edit_form_from_task, _diff_rows"]}
{"id": "C80", "title": "The dashboard's buttons and bulk actions do one scheduler call per task and record its outcome", "statement": "Run, pause, resume and remove, pressed for one task, do exactly what the scheduler call of that name does to that task and nothing else, and record one entry: succeeded, failed when there is no such task (nothing changes), or a warning when a run is refused because the task is at its instance limit. A bulk action is the same presses one after another, in the order of the form; bulk remove removes, and bulk pause pauses, every named task that exists and no other, each named id getting one entry.", "quantifier": "all buttons, all lists of ids (repeated and unknown ones too) and all reachable states of a started scheduler", "why_tests_cant": "lists of ids are unbounded and each press changes the state in which the next one is made", "anchors": ["asyncz/contrib/dashboard/controllers/tasks.py: TaskRunController, TaskPauseController, TaskResumeController, TaskRemoveController, HTMX and bulk controllers, _audit_task_action, _parse_ids_from_request", "asyncz/schedulers/base.py: run_task, pause_task, resume_task, delete_task"]}
{"id": "C81", "title": "The dashboard's create form adds exactly the task it describes", "statement": "Posting the create form adds, when the trail records a creation, exactly one task under a fresh id: the imported callable, the trigger of the two trigger fields (interval of 10 s by default, starting one interval from now; crontab line or ISO date read in the scheduler's zone), positional and keyword arguments from JSON, name and store of the form and the scheduler's defaults for the rest, first due at the trigger's first answer - and nothing else changes. In every other case no task, event or other state of the scheduler changes; an import that fails or a trigger that cannot be read is recorded as a failure, and the form or the store explains every other refusal.", "quantifier": "all forms, reachable scheduler states, clocks and zones, importable objects and behaviours of the JSON reader", "why_tests_cant": "free text in seven fields; every add_task outcome and every kind of imported object", "anchors": ["asyncz/contrib/dashboard/controllers/tasks.py: TaskCreateController.post", "asyncz/contrib/dashboard/controllers/_helpers.py: parse_trigger_config", "asyncz/schedulers/base.py: add_task, create_trigger"]}
{"id": "C82", "title": "Command-line inspection leaves the opened stores as they were", "statement": "A command that only looks (list, status, doctor, instances, preview, inspect, timeline, update --dry-run), run with --store and without --bootstrap, changes no task stored there. What holds: it starts a scheduler of its own on the stores, whose first wakeup still runs before the process ends. A task that is not due, or whose store cannot be read, is left alone and nothing appears; a due task of the executor 'default' moves to its first fire time after now or is deleted when there is none, a due task of any other executor is deleted; and no coroutine of a due task begins to run.", "quantifier": "all contents of the stores that any scheduler can have left, all clocks, locks and failures, all triggers", "why_tests_cant": "depends on what is due at the instant the command happens to run and on the order of callbacks on the event loop", "anchors": ["asyncz/cli/commands/list.py, status.py, doctor.py, instances.py, preview.py, inspect.py, timeline.py, update.py, pause.py, resume.py, run.py, remove.py, add.py", "asyncz/schedulers/asyncio.py: AsyncIOScheduler.start, wakeup, shutdown", "asyncz/schedulers/utils.py: run_in_event_loop", "asyncz/executors/asyncio.py: do_send_task, shutdown", "asyncz/schedulers/base.py: start, process_tasks, shutdown"]}
{"id": "C83", "title": "A command-line change of one task persists and touches no other", "statement": "pause, resume, run, remove, add and update without --bootstrap change, in the stores they open, the task they name and no other task that is not due. After pause the task is kept without next run time; after remove it is gone; after resume it has its trigger's first answer; after add it is stored with its first run time; after run its function has been executed. An unknown id is an error.", "quantifier": "all contents of the stores that any scheduler can have left, ids, tasks, clocks, locks and failures", "why_tests_cant": "all stored contents and all moments between the call and the end of the process", "anchors": ["asyncz/cli/commands/list.py, status.py, doctor.py, instances.py, preview.py, inspect.py, timeline.py, update.py, pause.py, resume.py, run.py, remove.py, add.py", "asyncz/schedulers/asyncio.py: AsyncIOScheduler.start, wakeup, shutdown", "asyncz/schedulers/utils.py: run_in_event_loop", "asyncz/executors/asyncio.py: do_send_task, shutdown", "asyncz/schedulers/base.py: start, process_tasks, shutdown"]}
{"id": "C84", "title": "What a task logs is captured under that task", "statement": "Once a dashboard is mounted, every message logged at INFO or above through get_task_logger(task_id) is captured in the dashboard's log storage with its text, level, logger and time, filed under that task; nothing is captured that was not logged in the asyncz namespace.", "quantifier": "all histories of mounts, log calls, logger settings and shared extra dictionaries, all names, levels, texts", "why_tests_cant": "depends on the whole tree of logger settings, on earlier calls that shared a dictionary, and on every level and name", "anchors": ["asyncz/contrib/dashboard/logs/handler.py: TaskLogHandler, TaskLoggerAdapter, get_task_logger, install_task_log_handler", "asyncz/contrib/dashboard/controllers/logs.py: get_log_storage, build_log_context", "asyncz/contrib/dashboard/application.py: create_dashboard_app", "asyncz/contrib/dashboard/logs/storage.py"]}
{"id": "C85", "title": "The logs page shows the newest captured entries that match", "statement": "After any history, the logs page shows, newest first, exactly those entries captured in the storage last mounted (as far as it still holds them: its newest n) that satisfy the given filters, up to the number asked for (1..1000, default 200); looking changes no storage.", "quantifier": "all histories of mounts, log calls and logger settings, all storages and sizes, all query parameters", "why_tests_cant": "every history, storage size and combination of filters", "anchors": ["asyncz/contrib/dashboard/logs/handler.py: TaskLogHandler, TaskLoggerAdapter, get_task_logger, install_task_log_handler", "asyncz/contrib/dashboard/controllers/logs.py: get_log_storage, build_log_context", "asyncz/contrib/dashboard/application.py: create_dashboard_app", "asyncz/contrib/dashboard/logs/storage.py"]}
{"id": "C86", "title": "The page of a run shows the run's log entries", "statement": "The page of a run shows at most the limit of held log entries; each belongs to the run or to its task within the run's window (5 s either side; any task's, if the task id is empty); the run's own come first, newest first; no line is shown twice unless the run's own entries alone reach the limit; none is missing while there is room (unless the task's entries of that time outnumber the limit and repeat a line).", "quantifier": "all run records, limits and contents of the log storage", "why_tests_cant": "all contents of the storage, orders and duplicates", "anchors": ["asyncz/contrib/dashboard/history.py: logs_for_run", "asyncz/contrib/dashboard/controllers/history.py"]}
{"id": "C87", "title": "Where a setting's value comes from", "statement": "A declared setting has the value of the environment variable of its upper-case (unprefixed) name read for its type, else the value passed to the constructor, else the class's default, else None; a text the type does not read is a ValueError.", "quantifier": "all settings classes, environments, constructor arguments and texts", "why_tests_cant": "every environment, class and text", "anchors": ["asyncz/conf/global_settings.py: BaseSettings.__init__, _cast, dict, Settings"]}
{"id": "C88", "title": "dict() lists the declared settings", "statement": "dict() lists exactly the annotated attributes of the settings (for asyncz's own settings: the four documented ones and the internal __type_hints__ and __truthy__) with their values in order of declaration, then, if asked, the properties that can be read, without those excluded and, if asked, without those that are None; upper writes the names in upper case.", "quantifier": "all settings classes, instances, options", "why_tests_cant": "every class, instance and combination of options", "anchors": ["asyncz/conf/global_settings.py: BaseSettings.__init__, _cast, dict, Settings"]}
{"id": "C89", "title": "Runs when the scheduler process may die", "statement": "A task kept in a durable store is run once for each of its run times: through any passes, passes that raise, deaths of the process at any point of a pass and restarts, each run time is handed to the executor exactly once, or merged into a later one by coalescing, and a run that was handed over is executed.", "quantifier": "all states, tasks with forward triggers, sequences of passes, failures, crash points and restarts", "why_tests_cant": "every crash point in every history of any length", "anchors": ["asyncz/schedulers/base.py: process_tasks, _process_tasks_of_store, start, add_task, add_store", "asyncz/executors/base.py: send_task", "asyncz/stores/*"]}
{"id": "C90", "title": "Adding the tasks again at start-up", "statement": "An application that adds the same tasks before each start keeps the stored task with its next run time unless it passes replace_existing, so missed runs are caught up; with replace_existing the task starts afresh from the restart and the missed runs are never handed over.", "quantifier": "all dead processes, start-up calls and later histories", "why_tests_cant": "every state the process died in, every list of calls, every later history", "anchors": ["asyncz/schedulers/base.py: process_tasks, _process_tasks_of_store, start, add_task, add_store", "asyncz/executors/base.py: send_task", "asyncz/stores/*"]}
{"id": "C91", "title": "The timeline of upcoming runs", "statement": "As long as no task id is in two stores at once, the timeline (asyncz timeline and the dashboard page) shows the first runs of every task, at most per_task of each, merged in the order of time and cut after limit rows: an upcoming run is missing only because the rows are full of earlier or equal ones or because per_task earlier runs of its task exist; the first row is the earliest upcoming run of all tasks and the counts are the real ones; the numbers asked for are brought into 1..10 and 1..500. Paused tasks are shown too. With one id in two stores, the runs of one are shown for both and the other's are missing.", "quantifier": "all reachable scheduler states, triggers, instants, requested numbers and texts", "why_tests_cant": "every set of tasks and triggers, every clash of the limits", "anchors": ["asyncz/cli/commands/timeline.py: _bounded, _timeline_payload", "asyncz/contrib/dashboard/controllers/timeline.py: _bounded_int, build_timeline_context", "asyncz/schedulers/base.py: get_task_infos, preview_task_runs"]}
{"id": "C92", "title": "Diagnostics tell the truth", "statement": "The doctor reports failed exactly when the scheduler has no store or no executor, a warning exactly when it is stopped and has both, ok otherwise; ready means ok and --strict fails otherwise; the start time shown is that of the start since which the scheduler has not been stopped, and there is one whenever it runs; the runtime page shows every store and executor once, with the number of tasks that carry its alias.", "quantifier": "all histories of calls on a scheduler", "why_tests_cant": "every sequence of starts, stops, additions and removals", "anchors": ["asyncz/cli/commands/doctor.py: _build_checks, _health_from_checks, _build_doctor_payload, doctor", "asyncz/schedulers/base.py: get_scheduler_info, get_scheduler_instance_infos, start, shutdown", "asyncz/contrib/dashboard/controllers/runtime.py: build_runtime_context"]}
{"id": "C93", "title": "Log messages of pool processes", "statement": "Every log call made in a worker process of the process pool reaches the scheduler's logger exactly once, the calls of one worker in their order, whatever the workers' timing and whenever one is killed, and shutdown returns only when all of them have been logged; nothing hangs.", "quantifier": "all numbers of workers, sequences of calls, interleavings of their writes and the reader, kills, pipe capacities", "why_tests_cant": "the writes of several processes to one pipe, byte by byte, in every order", "anchors": ["asyncz/executors/process_pool.py: ProcessPoolLoggerSender, ProcessPoolReceiver, ProcessPoolExecutor.start, ProcessPoolExecutor.shutdown"]}
{"id": "C94", "title": "Dataclass and attrs models through a Shape", "statement": "Constructing a model from a mapping succeeds exactly when the mapping gives every required parameter and nothing the class does not take, and the class's own code does not raise; every field then has the value given or its default. Everything else raises a validation error (a deserialization error from load), nothing else; an existing instance is returned as it is. Dumping and loading gives an equal instance exactly when every field's value is plain, is written under a name the constructor takes, or is a None left out whose default is None. Dumping fails exactly when a field was never set.", "quantifier": "all classes, mappings, instances and nested field values, with and without exclude_none", "why_tests_cant": "arbitrary field lists and arbitrarily nested values", "anchors": ["asyncz/shapes/builtins.py: DataclassShape, AttrsShape, AnyShape (construct, dump, fields)", "asyncz/shapes/base.py: Shape.construct, Shape.dump, Shape.load, dump_plain"]}
{"id": "C95", "title": "A remote edit is previewed as it will be made", "statement": "The remote dashboard previews an edit of a task without the worker: the preview is refused exactly when a key is not editable or a value is not of the kind the attribute takes, otherwise it shows exactly the changes asked for and leaves the worker's snapshot alone. Every edit of editable attributes that the worker would accept is accepted by the preview, and it shows the attributes the task then has, provided the task has a name and its reference is that of its callable.", "quantifier": "all tasks, all update dictionaries with arbitrary values, all resolutions of references", "why_tests_cant": "arbitrary combinations of updates; agreement of two independent validators", "anchors": ["asyncz/contrib/dashboard/remote.py: RemoteTask.update_task, snapshot, model_copy", "asyncz/contrib/dashboard/controllers/tasks.py: TaskEditController.post", "asyncz/tasks/base.py: Task.update_task"]}
{"id": "C96", "title": "asyncz start: reloading, hooks and shutdown", "statement": "asyncz start --watch reloads at a look exactly when a watched file is missing or has another modification time than when last seen. Nothing failing, it lives one life (start, on_start, on_stop, shutdown) per change, and an interrupt completes the last. Whatever fails or is interrupted, at no moment do more than two schedulers run and of two the older has been asked to stop; a scheduler starts once, is asked to stop only after that and stops once, only after being asked; when the command ends none is left running.", "quantifier": "all options, all histories of the watched files, all numbers of turns, all failures and interrupts of loading, starting, hooks, reloading and sleeping, all suspension points", "why_tests_cant": "unbounded polling loop with failures and interrupts at any point", "anchors": ["asyncz/cli/commands/start.py: start, boot_once, run_forever", "asyncz/cli/utils.py: collect_watch_targets, changed, _call_hook", "asyncz/schedulers/asyncio.py: AsyncIOScheduler.shutdown"]}
{"id": "C97", "title": "--bootstrap: one scheduler, one more user", "statement": "Loading a bootstrap path gives the same scheduler until the cache is cleared, without further calls; only an AsyncIOScheduler is accepted, and a failure is not remembered. asyncz start --bootstrap is one more user of that scheduler: it starts it only if nobody holds it, never restarts it whatever changes, and at the end releases it exactly once, so that it stops only if nobody else holds it.", "quantifier": "all targets, all sequences of loads and clearings, all numbers of users, all turns, failures and interrupts", "why_tests_cant": "arbitrary load histories and failure points", "anchors": ["asyncz/cli/bootstrap_loader.py: load_bootstrap_scheduler, import_protocol, assert_scheduler, clear_bootstrap_cache", "asyncz/cli/commands/start.py: boot_once, run_forever", "asyncz/schedulers/base.py: inc_refcount, decr_refcount"]}
{"id": "C98", "title": "History, audit, events and overview pages show what is held", "statement": "A query of the run history answers the first `limit` of the matching runs it holds, the last heard of first (ties in the order recorded). The last run of a task is one of its runs and none was heard of later; once a run's end is reported, it is the one shown. The summary counts every run once. The history, audit and events pages apply exactly the filters in the query string, and show 200 rows unless asked for 1 to 1000. The overview never fails and shows the first ten tasks by next run time with their last runs, the counts, and the six latest runs.", "quantifier": "all histories of reports, all queries and query strings, all schedulers and tasks", "why_tests_cant": "all combinations of filters, limits, ties and histories", "anchors": ["asyncz/contrib/dashboard/history.py: query, latest_for_task, summary", "asyncz/contrib/dashboard/controllers/history.py, audit.py, events.py, home.py"]}
{"id": "C99", "title": "The dashboard records every event of a mounted scheduler once", "statement": "After any history of mounts, remounts, dispatched events, listeners added and removed by others, and clearings, each event storage holds the newest records - up to its size - of exactly the events of a known kind that the schedulers reporting to it dispatched since it was cleared, one each, in order; each history storage is in the state its schedulers' reports lead to. A record tells the code, name, category, task, store, scheduler and details of its event. The pages read the storage named last.", "quantifier": "all histories of mounts, dispatches, other listeners and clearings, over any number of schedulers and storages; all events", "why_tests_cant": "all orders of mounts, remounts and events, and all event codes and contents", "anchors": ["asyncz/contrib/dashboard/events.py: install_scheduler_event_listener, _event_record", "asyncz/contrib/dashboard/history.py: install_run_history_listener", "asyncz/schedulers/base.py: add_listener, remove_listener, dispatch_event"]}
{"id": "C100", "title": "A scheduler's event loop lives as long as the scheduler is used", "statement": "However with-blocks, ASGI lifespans and start/shutdown pairs on one AsyncIOScheduler overlap, and whatever the event loops do in between: while somebody uses it the scheduler is up and the loop it uses runs; of the threads it has made at most one runs a loop; once nobody uses it and the shutdowns asked for are done, it is down and no thread of its own runs a loop, nor is a timer left on one. A start never fails, a shutdown asked for is done by the loop in bounded work. A timer that was set and expires while the scheduler is used makes the loop process the tasks.", "quantifier": "all interleavings of sessions, wakeups, timers and loop steps; with a given, an existing or an isolated loop", "why_tests_cant": "all interleavings of several users with the deferred shutdown and the loop's own steps", "anchors": ["asyncz/schedulers/asyncio.py: AsyncIOScheduler.start, _shutdown, shutdown, NativeAsyncIOScheduler", "asyncz/schedulers/base.py: inc_refcount, decr_refcount, asgi", "asyncz/schedulers/types.py: __enter__, __exit__, __aenter__, __aexit__"]}
{"id": "C101", "title": "The links and buttons beside a task lead to that task", "statement": "On the dashboard's task list, whatever the id of a task: its Details and Edit links open the page of that task, its Run, Pause, Resume and Remove buttons act on that task and on no other, its Logs and History links show that task's logs and runs; and the links beside a run open that run and its logs; the bulk buttons, the table's refresh and paging and the create form reach the handlers they are meant for, whatever the filters of the page.", "quantifier": "all task ids, mount prefixes, page filters; all six kinds of link; all run ids the dashboard makes", "why_tests_cant": "all texts as ids, through the browser's resolution of references, percent-encoding and the order of the routes", "anchors": ["asyncz/contrib/dashboard/templates/tasks/_table.html", "asyncz/contrib/dashboard/application.py: create_dashboard_app", "asyncz/contrib/dashboard/config.py: get_effective_prefix", "asyncz/contrib/dashboard/controllers/logs.py: _log_filters", "asyncz/contrib/dashboard/controllers/tasks.py: TaskHXRunController, TaskDetailController, TaskEditController"]}
{"id": "C102", "title": "What an action has to say is shown in its answer, once, and as plain text", "statement": "When a Run button finds a task at its limit of instances, or the create form is refused, the answer to that very request shows one message for it, in order; no message is shown twice or lost; and the browser shows the text of each message exactly, whatever task ids, paths or error texts are in it.", "quantifier": "all sequences of requests of a browser, all lists of ids pressed, all scheduler states, all message texts", "why_tests_cant": "all texts (ids are free text and go into messages) read by an HTML parser; all interleavings of actions with the refreshes that consume messages", "anchors": ["asyncz/contrib/dashboard/messages.py: add_message, get_messages", "asyncz/contrib/dashboard/controllers/_helpers.py: _collect_messages, _render_messages_oob, render_table", "asyncz/contrib/dashboard/mixins.py: default_context", "asyncz/contrib/dashboard/controllers/tasks.py: TaskHXRunController, TaskBulkRunController, TaskCreateController", "asyncz/contrib/dashboard/templates/shared/messages.html"]}
{"id": "C103", "title": "The task list keeps its filters, sorting and page", "statement": "Whatever the query string the task list was opened with: its automatic refresh, its page turns, the bulk buttons and the buttons beside a task send back exactly the same filters, sorting, direction, page and page size; the list shows exactly the tasks matching all filters; pressing Next from the first page on shows every matching task exactly once; and the create form keeps the filters too.", "quantifier": "all query strings, all texts as filters, all task sets, all mount prefixes, all numbers of presses", "why_tests_cant": "all texts through percent-encoding, the browser's reading of references and the parser; all lengths of the list", "anchors": ["asyncz/contrib/dashboard/controllers/_helpers.py: parse_task_filters, _bounded_int, _build_task_query_suffix, _paginate_task_infos, build_task_dashboard_context", "asyncz/contrib/dashboard/templates/tasks/tasks.html", "asyncz/contrib/dashboard/templates/tasks/_table.html"]}
{"id": "C104", "title": "A task handle stays the task", "statement": "The Task a caller holds (the one given to add_task, or answered by get_task, update_task, ...) goes on being the scheduled task: its attributes are those the scheduler has, every look-up answers this very object, its own update, pause and delete act on this task and on no other, and sharing objects makes no call behave otherwise than it does on plain values.", "quantifier": "all programs of calls around one scheduler, by id or through the Tasks they hold, all tasks, all stores, all passes in between", "why_tests_cant": "aliasing: any object may be shared by the caller, the pending list and a store after any history of calls", "anchors": ["asyncz/tasks/types.py: TaskType.update, reschedule, pause, resume, delete", "asyncz/tasks/base.py: Task.update_task", "asyncz/schedulers/base.py: add_task, real_add_task, get_task, lookup_task, update_task, delete_task, _process_tasks_of_store", "asyncz/stores/memory.py"]}
{"id": "C105", "title": "What the options of a scheduler mean, at every setup", "statement": "A setup is accepted exactly when every option given is one its type can take, and then each option has the documented meaning: numbers and texts as seconds, yes and no in words for coalesce, a startup delay of 1 s only with a lock path, absent task defaults 1 s, true and 1. Nothing of earlier setups is left except the identity (kept unless a true one is given, never empty) and the shape (kept unless given). A refused setup has done everything before the offending option and nothing after it. The task defaults reach every task added without options of its own.", "quantifier": "all dictionaries of options, all values, all histories of setups, accepted or refused, all environments (texts read as numbers, zone names)", "why_tests_cant": "the options take values of any type and the state left by any history of setups; tests try a few dictionaries on a new scheduler", "anchors": ["asyncz/schedulers/base.py: BaseScheduler._setup, setup", "asyncz/schedulers/datastructures.py: TaskDefaultStruct", "asyncz/utils.py: to_timezone_with_fallback", "asyncz/shapes/registry.py: resolve_shape"]}
