# Formal model of asyncz in Rocq (Coq 8.16.1)

Source under study: `/repo/asyncz` (pinned; read as text, never executed here). The development is in
`rocq/theories`; build with `coq_makefile -f _CoqProject -o Makefile && make -j4` in `rocq`.

## Conventions

* Instants and durations are `Z`, in microseconds (Python's `datetime` resolution), instants counted
  from 1970-01-01T00:00:00Z.
* Python exceptions are values: `result A := Ok a | Err e`. A method that mutates and then raises returns
  the mutated state together with the error.
* Loops are structural recursion, or recursion on fuel with a visible `OutOfFuel` result. A theorem
  either holds for every fuel, or says how much is enough, or (non-termination) says that none is.
* Randomness (`random.uniform`), clocks, user functions, listeners, pickle, the cipher, digests and the import
  system are arguments of the model; theorems quantify over them, with the laws they need as explicit
  hypotheses (`pickles`, AES-CCM inversion and authenticity, collision-free digest), never as axioms.
* Concurrency (threads, processes, the event loop, crashes) is a list of atomic steps in any order;
  theorems quantify over every list.
* Files: `X.v` is a model (no proofs; each definition cites the lines it models and says what it
  simplifies), `XSpec.v` is an independent specification that does not use the model's algorithms,
  `XProofs.v` are lemmas, `Prop*.v` hold the property theorems, each next to an `Example` that meets its
  hypotheses in a non-trivial case.
* Naming: `Cnn_...` belongs to property Cnn; `_partial` proves part of it, and says what is missing;
  `_refuted` shows, by a concrete execution of the model or for a whole class of inputs, that the code
  as it is does not have the property (or that a hypothesis of the proved theorem is needed).
* Status `proved`: the property as worded in `properties.jsonl` is proved. Where the wording itself
  restricts the scope (for example to non-empty ids), a `_refuted` theorem shows that the restriction is needed.
  Status `partial`: the wording is not (or not completely) true of the code, or part of it is outside the model.

## Trusted base

* Coq's kernel, including the `vm_compute` machine used by concrete examples and some finite case splits.
* The reading of `/repo` into Gallina, cited definition by definition. Nothing checks it mechanically: the
  project and its dependencies are not installed here.
* No axioms: see "Print Assumptions" at the end. No `Admitted`, no functors or module types, no switched-off checks.

## What is modelled

| code (under `/repo/asyncz`) | model | left out |
|----|----|----|
| `stores/memory.py` | `MemStore` | aliasing of task objects between caller and store |
| `stores/{redis,mongo,sqlalchemy,file}.py`, `stores/base.py` | `Durable` (rows, documents, hash + sorted set, directory), `Persist` | the drivers and servers themselves: their commands are given their documented meaning |
| `file_locking.py`, `stores/file.py` at the level of system calls | `FileSys` | Windows/Redis lock back ends; partial writes inside one `write` |
| `locks.py` | `Locks` | fairness |
| `triggers/{base,date,interval,combination,shutdown}.py` | `Triggers`, `FloatDiv` (binary64 division); zones of dates in `TrigZone` | year-9999 overflow of intervals |
| `triggers/cron/*.py` | `Calendar`, `Cron`, `CronParse`; time zones with transitions in `Zone` | non-ASCII digits |
| `tasks/base.py`, `tasks/types.py`, `utils.py:338-422` | `Task`, `CallArgs`, `Inspect` | pydantic coercion, `__repr__` |
| `schedulers/base.py` | `Scheduler` | see the header of that file: one clock reading per public call; log lines |
| `schedulers/asyncio.py`, `schedulers/utils.py` | `Timer` | the event loop beyond its FIFO queue and timers |
| `executors/*.py` | `Executor`, `Conc`, sections of `Scheduler` | the pools' own scheduling: any interleaving |
| `events/*.py`, dispatch | `Events` | |
| `shapes/*.py` | `Shapes` | see the header |
| `contrib/dashboard/{logs/storage,audit,events,history,remote}.py`, `controllers/_helpers.py` | `Dash`, `History`, `Forms`, `Remote` | HTML, HTTP framework, sockets |
| `contrib/dashboard/controllers/tasks.py` | `TaskPages`, `TaskCreate` | HTML, redirects, message texts |
| `cli/{_parsers,utils,types}.py` | `Cli` | click, console output |
| `utils.py` dates | `DateText` | |
| `schedulers/base.py` `add_task` in all its calling forms, `tasks/base.py` `__call__` | `AddTask` | pydantic coercion |
| `schedulers/base.py` `setup`, `_setup`, plugin creation | `Config` | the import system (a parameter) |
| `cli/{update,loader,bootstrap}.py` | `CliTask` | click, console output, JSON parsing (a parameter) |
| `utils.py` `obj_to_ref`, `ref_to_obj`; `tasks/base.py` `__getstate__` references | `Refs` | Python's attribute lookup beyond a finite object graph |
| `cli/commands/{list,status,doctor,instances,preview,inspect,timeline,update,pause,resume,run,remove,add}.py` | `CliRun` (the command as a process: scheduler, event-loop queue, cancellation at exit) | click, output formats |
| `contrib/dashboard/logs/handler.py`, `controllers/logs.py`, `history.py` `logs_for_run`, Python's `logging` as far as they use it | `Capture` | filters, other handlers, `addLevelName`, names with adjacent dots |
| `conf/global_settings.py` | `Settings` | resolution of string annotations, `post_init` |
| death of the process during `schedulers/base.py` `process_tasks`, and a restart | `Crash` | a crash inside one store write (C40 has it for the file store) |
| `cli/commands/timeline.py` `_timeline_payload`, `contrib/dashboard/controllers/timeline.py` | `Timeline` | labels of a row's fields |
| `executors/process_pool.py` | `Relay` (sender, pipe, receiver thread) | pickling (any pair of functions), the logger's handlers; the documented behaviour of `Connection.send` and of POSIX pipes (PIPE_BUF 4096) is trusted |
| `cli/commands/doctor.py`, `contrib/dashboard/controllers/{runtime,instances}.py`, `get_scheduler_instance_infos` | `Status` | messages, class and logger names, formats |
| `shapes/builtins.py` (Dataclass, Attrs, Any), `shapes/base.py` `Shape` | `DataShape` | PydanticShape, MsgspecShape, annotations, attrs aliases |
| `contrib/dashboard/remote.py` `RemoteTask`, `tasks/types.py` `snapshot` | `Preview` | `__repr__` |
| `cli/commands/start.py`, `cli/utils.py` watch targets | `Supervise` | console output, signals that do not reach the coroutine |
| `cli/bootstrap_loader.py`, `start --bootstrap` | `Bootstrap` | effects of importing, metaclasses |
| `contrib/dashboard/history.py` queries, `controllers/{history,audit,events,home}.py` | `HistoryPages` | templates, labels |
| `contrib/dashboard/events.py` records and listener, `history.py` listener | `Watch` | truncation of repr texts, times as texts |
| `schedulers/asyncio.py` loop threads, `asgi`, context managers | `OwnLoop` | what `process_tasks` does (see `Timer`); monkay's `LifespanHook` beyond calling setup and exit once each |
| `contrib/dashboard/application.py` routes, links in `templates/tasks`, `templates/history` | `Links` | the browser (URL standard: resolution of references, percent-encoding) and Lilya's router are modelled as trusted environment; statics and the other pages' routes left out |
| `contrib/dashboard/messages.py`, `mixins.py` (messages), `controllers/_helpers.py` `_render_messages_oob` | `Banner` | sessions carried in order by one browser; the browser's HTML reading as far as character data, references and tags (a parameter gives the table of references); autoescape of the template engine trusted |
| `controllers/_helpers.py` `parse_task_filters`, `_build_task_query_suffix`, `build_task_dashboard_context` (rows, page, suffixes) | `TaskFilters` | ASCII strip and lower; not the offered executors/triggers, last runs and counts of the context |
| `schedulers/base.py`, `stores/memory.py`, `tasks/types.py` `update`, `pause`, `resume`, `reschedule`, `delete`: which objects are shared | `Handles` | one scheduler; nobody assigns to attributes directly; records of durable stores are values |
| `schedulers/base.py` `_setup` (scalar options), `datastructures.py`, time zones of `utils.py` | `Options` | seconds in whole microseconds; no `loggers_class`; Shapes leave `task_defaults` as they are |
| `contrib/dashboard/admin/**`, `contrib/dashboard/config.py` prefixes | `Gate` | Lilya's routing, cookie signing, ipaddress |

Not modelled at all: HTML templates, static files, console output, logging configuration, dashboard login middleware's
HTTP layer, the third-party drivers, garbage collection, memory limits, signals.

## Testing the theorems against wrong programs

`seeded/LOG.jsonl` has one line per seeded bug: the model definition edited, the edit, the English claim it breaks,
the first theorem or lemma that stopped proving, the properties that rest on it, and the theorems tightened when a bug
survived.


## Per property: model and proof

`MANIFEST.json` lists the theorem names; here is what each one is about and how it is proved.

| id | property | status | model | statements in | how it is proved |
|----|----|----|----|----|----|
| C01 | Memory store is a map from id to task, listed by (next run time, id) | proved | `MemStore` | `PropStore` | representation invariant (sorted list + index agree) by induction over operation lists; answer-by-answer refinement of a finite map |
| C02 | Memory store due query is exact and ordered | proved | `MemStore` | `PropStore` | same refinement; the cut point of the sorted list is exactly the due tasks |
| C03 | All store back ends give the same answers | proved | `Durable` | `PropDurable` | each back end refined to the same map (`StoreSpec`), induction over histories |
| C04 | Interval trigger fires on the grid, at the first grid point not in the past | proved | `Triggers`, `FloatDiv` | `PropTriggers` | bit-exact float quotient shown to round to the integer ceiling under the stated bounds |
| C05 | A date trigger fires exactly once | proved | `Triggers` | `PropTriggers` | case analysis |
| C06 | Jitter delays by at most the configured amount and never anticipates | proved | `Triggers` | `PropTriggers` | for every random oracle |
| C07 | And-combination only fires when all its triggers agree | proved | `Triggers` | `PropTriggers` | loop invariant of the agreement search, every fuel |
| C08 | Or-combination answers the earliest child time | proved | `Triggers` | `PropTriggers` | least element of the children's answers |
| C09 | Cron trigger answers the least matching second | proved | `Calendar`, `Cron` | `PropCron` | least-match: no matching second between the start and the cursor is an invariant of the search |
| C10 | Cron field expressions compute the least admissible value | proved | `Cron` | `PropCron` | per expression kind, arithmetic |
| C11 | Cron search always terminates and makes progress | proved | `Cron` | `PropCron` | lexicographic measure on the cursor; explicit fuel bound |
| C12 | Omitted cron fields get their documented defaults | proved | `CronParse` | `PropCronText` | evaluation of the field table for any set of given fields |
| C13 | Run times handed out are exactly the trigger's fire times up to now | proved | `Task` | `PropTask` | induction over wake-up sequences |
| C14 | Coalescing keeps exactly the latest run | proved | `Task` | `PropTask` | last element of the run-time list |
| C15 | After a wake-up nothing that was due is left due | proved | `Scheduler` | `PropSched` | induction over the due tasks and the stores |
| C16 | The scheduler wakes up no later than the next due task | proved | `Scheduler` | `PropSched` | minimum over stores |
| C17 | Paused tasks and paused schedulers submit nothing | proved | `Scheduler` | `PropSched` | trace of submissions |
| C18 | Maximum concurrent instances is never exceeded | proved | `Scheduler`, `Executor` | `PropLife` | invariant over all reachable states (`SchedReach`) |
| C19 | Instance accounting is race free | proved | `Conc` | `PropExec` | inductive invariant over interleavings of any number of threads |
| C20 | Every submitted run time yields exactly one outcome event | proved | `Executor` | `PropExec` | induction on run times |
| C21 | Failures of one task never block the others | proved | `Scheduler` | `PropSched` | frame property of one task's failure |
| C22 | A failing or locked store does not stop other stores | proved | `Scheduler` | `PropSched` | frame property of one store's failure |
| C23 | Task updates are all-or-nothing and validated | proved | `Task` | `PropTask` | case analysis on every attribute |
| C24 | Argument checking agrees with Python calls | proved | `CallArgs` | `PropTask` | independent specification of Python argument binding, induction on parameters |
| C25 | A task survives persistence unchanged | partial | `Persist` | `PropPersist` | round trip by induction over triggers, for any codec |
| C26 | Adding tasks: conflicts, replacement and first run time | proved | `Scheduler` | `PropLife` | step specification |
| C27 | Tasks added before start are all installed at start | proved | `Scheduler` | `PropLife` | induction over pending tasks |
| C28 | Start and shutdown are reference counted | proved | `Scheduler` | `PropLife` | accounting invariant over operation lists |
| C29 | Shutdown runs shutdown tasks exactly once and stops everything | proved | `Scheduler` | `PropLife` | step specification; all shutdown tasks |
| C30 | Pause/resume of a scheduler are idempotent and announced once | proved | `Scheduler` | `PropLife` | step specification |
| C31 | Resuming or rescheduling a task computes the next run from now | proved | `Scheduler` | `PropLife2` | step specification |
| C32 | Running a task on demand | proved | `Scheduler` | `PropLife2` | step specification |
| C33 | Deleting a task | proved | `Scheduler` | `PropLife2` | step specification and frame |
| C34 | Previews are read-only, increasing and truthful | proved | `Scheduler`, `Triggers` | `PropLife2` | induction on the number asked for |
| C35 | Task listings are complete, filtered and stably sorted | proved | `Inspect`, `SortList` | `PropInspect` | filter/permutation/stability of an insertion sort |
| C36 | Events reach exactly the listeners registered for them | proved | `Events` | `PropEvents` | induction on the listener list, arbitrary nested behaviour |
| C37 | Executor and store registration | proved | `Scheduler` | `PropLife3` | step specification, invariants over reachable states |
| C38 | At most one pending timer | proved | `Timer` | `PropTimer` | invariant over all sequences of loop events and calls |
| C39 | Encrypted task state round-trips and is rejected when altered | proved | `Persist` | `PropPersist` | from the stated laws of the cipher |
| C40 | File store survives a crash at any point | partial | `FileSys` | `PropFile` | every prefix of the step list of each operation |
| C41 | File store readers never destroy a task being written | partial | `FileSys` | `PropFile` | invariant over interleavings |
| C42 | File store ids cannot escape the store directory | proved | `Durable` | `PropDurable` | character-level reasoning on paths |
| C43 | The processing lock is exclusive and always released | partial | `Locks` | `PropLocks` | invariants over interleavings, exceptions and crashes |
| C44 | Dashboard log, audit and event stores keep exactly the newest entries | proved | `Dash` | `PropDash` | list lemmas over histories |
| C45 | Run history keeps one record per run and never loses a final status | partial | `History` | `PropHistory` | invariant over event sequences |
| C46 | Pagination partitions the listing | proved | `Forms` | `PropForms` | list arithmetic |
| C47 | Bulk-id parsing yields each requested id once, in order | partial | `Forms` | `PropForms` | induction on payloads |
| C48 | Shape registry resolution | proved | `Shapes` | `PropShapes` | induction over registration histories |
| C49 | Command-line options mean what they say | proved | `Cli` | `PropCli` | character-level grammar specifications, both directions |
| C50 | Remote control requires its token | proved | `Remote` | `PropRemote` | case analysis on requests |
| C51 | Date-time conversion and rounding | proved | `DateText`, `Calendar` | `PropDate` | grammar specification, both directions; arithmetic |
| C52 | The first fire time of a combination is the first instant it is scheduled for | proved | `Triggers` | `PropTriggers` | and/or over schedules as sets of instants |
| C53 | What a trigger answers after it has fired | proved | `Triggers` | `PropTriggers`, `PropTriggers2` | and/or over schedules; refutation by computation |
| C54 | When an and-combination returns | proved | `Triggers` | `PropTriggers`, `PropTriggers2` | loop invariant that never ends |
| C55 | Fire times strictly increase and do not depend on when they are asked for | proved | `Triggers` | `PropTriggers` | induction over triggers |
| C56 | Updating or pausing a task through the scheduler | proved | `Scheduler` | `PropLife2` | step specification |
| C57 | A running scheduler never oversleeps | proved | `Timer`, `Scheduler` | `PropTimer` | invariant: the live timer is no later than every due task |
| C58 | Cron text means what it says | proved | `CronParse` | `PropCronText`, `PropCronText2` | grammar specification, both directions |
| C59 | Trigger forms mean what they say | proved | `Forms` | `PropForms2` | grammar specification |
| C60 | Dumping a record keeps its data and yields plain values | proved | `Shapes` | `PropShapes` | nested induction over records |
| C61 | A remote call is the local call | proved | `Remote` | `PropRemote` | commuting diagram for each call |
| C62 | Adding a task remotely adds the same task | proved | `Remote` | `PropRemote` | commuting diagram for add |
| C63 | Catching up ends, with the right runs | proved | `Task`, `Triggers` | `PropCatchUp` | induction on the number of intervals that fit |
| C64 | Loading jobs from a module or a file | partial | `CliTask.load_jobs` | `PropCliTask` | construction fails by C23 for every entry |
| C65 | Cron schedules survive clock changes | partial | `Zone`, `Cron` | `PropZone` | search invariant over wall clocks, with skipped hours carried explicitly; what the clock shows is specified separately (`ZoneSpec`) |
| C66 | Intervals across clock changes are counted on the clock | proved | `Zone`, `FloatDiv` | `PropZone2`, `PropZone3` | normalisation shown to yield the instant at which the clock first shows the computed reading |
| C67 | Woken in time across clock changes | proved | `Zone` | `PropZone2` | arithmetic on what the clock shows |
| C68 | The zone of a trigger | proved | `TrigZone` | `PropTrigZone` | case analysis against a relational specification of the zone in force |
| C69 | Adding a function adds the task its arguments describe | proved | `AddTask`: the keyword dictionary of add_task, defaults, construction through `Task.update_task`, then `Scheduler.add_task` | `PropAdd` | the dictionary is read through its lookups (`construct_build`), then C26/C27 place the built task; refusals by inversion of each check |
| C70 | Decorating a function is adding it | proved | `AddTask.decorate`: the copy made by Task.__call__ | `PropAdd` | copying a validated definition rebuilds the same task (`copy_builds`), hence the same call; refuted cases by computation of the general model |
| C71 | Dotted configuration keys | proved | `Config.setup`: prefix, dotted keys, keyword options over configuration trees | `PropConfig` | invariant over the keys processed: every done entry is at its path and nothing else is there |
| C72 | Executors and stores are configured as described | proved | `Config.configure`: the executor and store sections over an abstract import system, with the class cache | `PropConfig` | induction over the entries with the invariant that the cache only holds what loading gives; a relational specification of what an entry asks for |
| C73 | The update command shows and makes the asked change | proved | `CliTask.cli_update` over `Scheduler.update`, json.loads and == as parameters | `PropCliTask` | the option dictionary is read through its lookups, C23 describes the proposal, C56 the applied update |
| C74 | One scheduler per bootstrap path | proved | `CliTask.boots`: histories of loads and clears | `PropCliTask` | induction over histories; relational specification of what a path gives |
| C75 | A saved task makes the same call | partial | `Refs`: object graphs, obj_to_ref, ref_to_obj, the saved state of a call | `PropRefs` | names are split back into the path they spell (C71), which leads to the object; invocation is specified as a relation; counterexamples in a concrete graph |
| C76 | Who gets past the dashboard's gate | partial | `Gate.gate`, `Gate.login`/`logout`/`authenticate` | `PropGate` | the child path is characterised by a relation (proved functional and total); histories of visits by induction; string lemma: two paths with a common path below both are nested |
| C77 | Prefixes behind a proxy, and security headers | partial | `Gate.normalize_prefix`, `forwarded`, `effective_prefix`, `add_headers` | `PropGate` | ways to write a prefix as a relation, total but for slashes alone; case analysis |
| C78 | The worker's HTTP API: each request is one call on the scheduler, answered by its outcome | proved | `Remote.worker` and its handlers, routes and error answers | `PropRemote2` | what a request asks as an inductive relation on path, query and body; case analysis of the router; functional lemmas query/entry/flag |
| C79 | The dashboard's edit page shows what it will do, does what it showed, and records it | partial | `TaskPages.edit_get`, `edit_post` and the field readers, on `Scheduler.update` | `PropTaskPages` | good and bad fields and the edited task as relations on the form; case analysis field by field; the update theorems of C31 carry the change |
| C80 | The dashboard's buttons and bulk actions do one scheduler call per task and record its outcome | partial | `TaskPages.press`, `bulk` on `Scheduler.run_task`, `pause_task`, `resume_task`, `delete_task` | `PropTaskPages` | corollary of C31, C32 and C30 for one press; induction over the ids for bulk actions, entries as an inductive relation |
| C81 | The dashboard's create form adds exactly the task it describes | partial | `TaskCreate.create_post` on `AddTask.add_function` | `PropTaskCreate` | what the form asks as a record relation on its text; C59 for the trigger fields, C69 for the task |
| C82 | Command-line inspection leaves the opened stores as they were | partial | `CliRun.run_command`: a command as a process, the scheduler of `Scheduler` on the queue of the event loop | `PropCliRun` | `start_spec`, `process_tasks_spec`, `shutdown_spec` composed; frame lemma for a pass that may fail anywhere |
| C83 | A command-line change of one task persists and touches no other | partial | same | `PropCliRun` | same, with `update_running`, `delete_task_spec`, `real_add_task_spec` for the call itself |
| C84 | What a task logs is captured under that task | partial | `Capture.log_call`: logging's tree, levels, propagation; adapter, handler, storages of a process; `CaptureSpec.captured` | `PropCapture` | characterise the chain of dotted names (sorted prefixes), then case analysis of a call; invariant over histories that leave logging alone |
| C85 | The logs page shows the newest captured entries that match | proved | `Capture.logs_page` after `lrun`; `CaptureSpec.told`, `wanted` | `PropCapture` | induction over histories with the newest-n invariant of each storage; filters by `log_keep_iff` |
| C86 | The page of a run shows the run's log entries | proved | `Capture.logs_for_run` | `PropCapture` | the loop's invariant (no key twice, prefix kept), then counting |
| C87 | Where a setting's value comes from | proved | `Settings.make` over arbitrary classes; relation `comes_to`, `reads` | `PropSettings` | induction over the hints; `py_int_iff` for numbers |
| C88 | dict() lists the declared settings | proved | `Settings.dump`; relation `listing` | `PropSettings` | induction over the hints |
| C89 | Runs when the scheduler process may die | partial | `Crash`: `cut_pass` (every crash point of a pass), `reborn` (a new process over what the stores kept); relation `history` | `PropCrash` | invariant of one task over a pass cut anywhere (`cut_pass_spec`), then induction over the history |
| C90 | Adding the tasks again at start-up | proved | `Crash.prepared`, `reborn` | `PropCrash` | specification of the pending queue at start, `C27_last_replacement_wins`, C89 |
| C91 | The timeline of upcoming runs | proved | `Timeline`: `gather`, `build_timeline`, `cli_timeline`, `page_timeline` over `Inspect.get_task_infos` and `Scheduler.preview` | `PropTimeline` | C34_preview for each listed task, stability of the sort, agreement of the fire sequences without jitter |
| C92 | Diagnostics tell the truth | proved | `Status`: `clock` (start time next to the state), `checks`, `doctor`, `runtime` | `PropStatus` | induction over the history with C35_counts_add_up and the life cycle lemmas |
| C93 | Log messages of pool processes | partial | `Relay`: the pipe byte by byte, step relation of writers, kills and receiver | `PropRelay` | invariants: pipe = frames of the unread calls (and a partial frame for one sender); measure for termination; conservation of bytes after the receiver died |
| C94 | Dataclass and attrs models through a Shape | proved | `DataShape`: `bind` (the generated __init__), `construct`, `load`, `dump`, `fields` | `PropDataShape` | induction over the field list; which values a dump leaves unchanged by induction over nested values (with C60) |
| C95 | A remote edit is previewed as it will be made | proved | `Preview`: `remote_task`, `snapshot`, `update` next to `Task.update_task` | `PropPreview` | each edit step characterised, composed over the list of edits; agreement from C23's specification of the worker's update |
| C96 | asyncz start: reloading, hooks and shutdown | partial | `Supervise`: `boot_once`, `loop`, `finally`, `start` with deferred shutdowns; `collect`, `changed`, `polls` | `PropSupervise` | every trace is orderly (numbers of schedulers started, stopped, asked), by induction over the turns; orderly traces are closed under prefixes |
| C97 | --bootstrap: one scheduler, one more user | partial | `Bootstrap`: `load_bootstrap`, `session`, `b_start` | `PropBootstrap` | cache invariant over sessions; invariant `held` over the turns |
| C98 | History, audit, events and overview pages show what is held | partial | `HistoryPages`: `hist_find`, `latest_for_task`, `hist_summary`, the pages' parameters, `home_page` | `PropHistoryPages` | stable sort and scan specifications, filters as in C44/C85, invariant `all_by` (no time stamp later than the last report) over the reports |
| C99 | The dashboard records every event of a mounted scheduler once | partial | `Watch`: `wrun` over `install`, `get_storage`, `notify`, the user's listeners and clearings; `make_record`, `report_of` | `PropWatch` | invariant `good` (who reports where, and at most one live listener per scheduler), both listeners from one generic proof; specs `roles`/`noted` read the history alone |
| C100 | A scheduler's event loop lives as long as the scheduler is used | partial | `OwnLoop`: `start`, `shutdown`, `run_loop`, `finish`, `expire` over threads, queues, user count; `native_start`, `native_shutdown` | `PropOwnLoop` | invariant `inv` over all events; a measure (`left_over`) for the completion of shutdowns; sessions as interleavings (`mixes`) |
| C101 | The links and buttons beside a task lead to that task | partial | `Links`: `target` (the templates), `resolve`, `encode` (the browser), `answers`, `route` (the router and its routes) | `PropLinks` | equivalences over all ids: sufficiency by computation, necessity by comparing lengths (every step from id to parameter only shortens) |
| C102 | What an action has to say is shown in its answer, once, and as plain text | partial | `Banner`: `add_message`, `get_messages`, `serve` (the session), `press_messages`, `bulk_messages`, `render_oob`, `escape`, `reads` (the browser's reading of HTML) | `PropBanner` | induction over requests, over ids pressed, over the messages of a banner; the frame of the banner read tag by tag |
| C103 | The task list keeps its filters, sorting and page | partial | `TaskFilters`: `parse_task_filters`, `quote_plus`, `urlencode`, `query_suffix`, `table_of`, `build_table`, `carries` (through `Links.resolve`) | `PropFilters` | urlencode is inverted by the parser (induction over texts and over the pairs); its characters pass the browser unchanged; then induction over presses of Next |
| C104 | A task handle stays the task | partial | `Handles`: a heap of Task objects and the calls of `Scheduler` on it (`h_add`, `h_update`, `h_delete`, `h_start`, `h_process`, `handle`, ...) | `PropHandles` | refinement: every object replaced by its present attributes gives the state of `Scheduler`; invariant: an object stands in at most one place and is submitted; induction over programs |
| C105 | What the options of a scheduler mean, at every setup | proved | `Options`: the assignments of `_setup` as a list of steps, each of which may raise; `TaskDefaultStruct`, time zones | `PropOptions` | the record of meanings determines the final state (both directions, option by option); invariant over the steps for the identity; induction over setups; the task side through C69 |

## Scope and findings per property

* **C03** (proved). The four conditions on Redis and files are necessary (C03_*_refuted): Redis never finds run times before 1970 due; FileStore.update_task with an unserialisable task destroys the stored one, and add_task leaves an empty file that blocks the id; the memory store tolerates updating an absent id.
* **C04** (proved). Whole-second intervals within 71 years of the start are exact (binary64 division modelled bit-exactly); C04_fractional_interval_refuted shows that 0.3 s intervals skip a grid point; C04_interval_on_grid_partial is what remains true for fractional intervals.
* **C12** (proved). The text of every field is determined by text_of (CronParseSpec); the trigger is built from exactly those texts. Observation: weekday 0 is Monday, not the Sunday of the crontab format that from_crontab refers to.
* **C15** (proved). Un-jittered triggers and non-empty ids; C15_jitter_refuted and C15_empty_id_refuted show both restrictions are necessary.
* **C16** (proved). Delays in exact microseconds; needs 0 <= retry interval <= TIMEOUT_MAX for the upper bound.
* **C19** (proved). One executor, any number of threads, any interleaving, any limits up to M. C19_two_executors_refuted: with two executors the shared dictionary and the per-executor locks lose updates and the limit is exceeded.
* **C20** (proved). C20_events_unless_a_call_escapes characterises when events appear; C20_escaping_call_refuted shows that SystemExit or CancelledError loses the events of earlier run times too.
* **C21** (proved). A trigger that raises does abort the pass (C15_fails_only_with_a_trigger); the three failures named by the property do not.
* **C24** (proved). The statement is exact. Its exception is a finding: def f(x=1, /, **kw) with kwargs {x: 2} is refused although the call is legal (C24_refused_although_it_binds).
* **C25** (partial). Every setting, the call and the due run times survive, for every task without a shutdown trigger whose Shape is registered. REFUTED in three ways: a restored interval trigger raises AttributeError when asked for its first time at or after its start (so resume_task fails; interval_size is not saved), tasks with a shutdown trigger are saved but cannot be loaded, and so are those saved under a Shape whose name is not registered. Fractional grace times are refused on save (C25_refused).
* **C28** (proved). Exact for every sequence. Findings: a call that raises still counts, so after one shutdown too many the second of two starts raises (C28_extra_shutdown_counts), and after a failed start the next one returns False with the scheduler stopped (C28_failed_start_counts).
* **C31** (proved). Scoped to a started scheduler; C31_pending_refuted shows that on a stopped one resume_task may modify a different pending task.
* **C33** (proved). Non-empty ids; C33_empty_id_refuted shows that a stored task with the empty id cannot be deleted.
* **C35** (proved). ASCII text for lower/strip; str(trigger) is an arbitrary function; times, uptime and settings of get_scheduler_info not modelled.
* **C36** (proved). Listeners may do anything when called (add, remove, nested dispatch, raise). Scope: integer masks; C36_string_mask_observation proves that a string mask, allowed by the annotation, makes dispatch raise TypeError and silences later listeners. Logging not modelled.
* **C37** (proved). C37_failed_start_refuted: a start that raises leaves executors and stores started on a stopped scheduler.
* **C38** (proved). Proved for all sequences. The last condition is necessary: add_task between shutdown() and its callback leaves a wake-up behind it, and the stopped scheduler then submits a run and arms a timer (C38_queued_wakeup_after_shutdown).
* **C39** (proved). AES-CCM enters through two stated laws (decryption inverts encryption; only encryptions are accepted); forgeries are excluded by an explicit premise. Observation: setting a key later makes all earlier records unreadable, and unreadable records are removed by the stores.
* **C40** (partial). The full property is false: C40_update_crash_loses_the_task_refuted holds for every update. Proved: all other tasks and files are intact at every crash point, and the written task is found old, new or not at all.
* **C41** (partial). The full property is false (three refutations: a reader between unlock and close; a lookup racing with add_task; two updates mixing). Proved, in any interleaving of any number of processes: tasks nobody is writing are never destroyed (C41_idle_tasks_safe_partial); the locks exclude readers and other writers while one writes (C41_locks_exclude); were the state flushed before the lock is released, updates and lookups would be safe (C41_flushed_updates_safe_partial: its hypothesis that nothing is left to write at close is not met by the present code, whose buffered writer always leaves the tail).
* **C42** (proved). For any suffix without '/' that is not empty, '.' or '..'. POSIX file names.
* **C43** (partial). Thread locks (locks.py 25-46) for any number of threads and file locks (49-77) for any number of processes, exits by exception and crashes included. Exclusion proved for thread locks, and for file locks while no shutdown removes the file; file lock released on every exit. Refuted: an exception leaves the thread lock held forever; the processing lock is re-entrant; shutdown of a store removes the lock file under a holder. A file lock of a process that died is free again (C43_files_death).
* **C44** (proved). Observation: a limit of 0 returns one entry (limit_zero_gives_one), so limits start at 1. Identifiers of audit records (uuid4) are assumed distinct.
* **C45** (partial). Proved for every event sequence whose identifiers do not contain the "|" separator (stores unnamed or named by non-empty text), every capacity, every digest without collisions. Missing because false of the code: identifiers containing "|" make run ids collide (overwritten records, KeyError), and the record is assigned outside the lock, so one interleaving of a submission with the execution of the same run loses the final status; both are proved as _refuted theorems.
* **C47** (partial). Proved: ids are distinct for every payload; comma text, JSON text, plain list and bytes payloads give the listed ids in order of first occurrence. False of the code (C47_empty_and_space_refuted): empty strings inside a JSON list are kept as ids, and comma pieces inside members of a list keep their surrounding space.
* **C49** (proved). Text is ASCII. A repeated alias silently overwrites the earlier one (stated). A deleted watched file asks for a reload at every look (stated: missing).
* **C51** (proved). Proved as stated. C51_fraction_refuted is a finding kept beside it: the fraction digits are a count of microseconds, so ".5" is five microseconds, not half a second.
* **C53** (proved). Exact (iff). Findings: C53_or_interval_loses_fires (the grids restart at each other's fire times), C53_or_date_lost.
* **C54** (proved). Exact: C54_and_returns_iff, C54_otherwise_never_returns. This is a defect of the code: the loop asks with the same previous fire time again and again (C54_and_hangs, C54_and_two_three_hangs, C54_and_date_hangs).
* **C57** (proved). Proved for every sequence of calls and callbacks. The exception is real: run_task(force=True) stores a next run time without waking the scheduler (base.py 855-863), so a forced task can be overslept without bound (C57_forced_run_is_overslept).
* **C58** (proved). Proved exactly (C58_accepted_exactly). Findings: the regular expressions for names, positions and "last" have no end anchor, so trailing junk is ignored ("jan-5" is January), and "0-0/5" is accepted (C58_tails_are_accepted, C58_only_documented_forms_with_tail).
* **C61** (proved). Exact for both kinds of id; optional names must not be empty texts. Findings: ids with "/" are misrouted, even to another task (C61_slash_misroutes), and preview_task_runs(now=...) ignores the time. Results are compared as JSON dumps; model_validate, the socket and the JSON text are not modelled.
* **C62** (proved). Exact. Finding: an explicit None is lost, so a task added paused (next_run_time=None) is added active, and one without a grace time gets the scheduler's (C62_explicit_none_is_lost).
* **C63** (proved). Proved for every positive interval, with the count; C13_terminates covers the other forward triggers. Finding: negative intervals are accepted and never end (C63_negative_interval_never_ends, for all of them; the model has no earliest date, Python would stop in the year 1).
* **C64** (partial). Refuted outright: the loaders call Task(func=...), which has no such argument; every non-empty list raises and adds nothing (C64_nothing_can_be_loaded_refuted, for all lists and states). Proved part: the empty list.
* **C65** (partial). Partial. Proved (unbounded, all ordinary zones): asked at an instant outside a repeated hour, the answer is a first showing, after what was asked, within end_at, no matching first showing is missed; the answer matches unless it falls in the hour after a clock put forward. Missing because false of the code: C65_skipped_hour_refuted (2:30 fires at a non-matching 3:30), C65_repeated_hour_skipped_refuted (second pass skipped), C65_answer_in_the_past_refuted.
* **C66** (proved). The plain claims are false across a change: an hourly task pauses two hours in autumn (C66_hour_apart_is_false), can fire half an hour after end_at in spring (C66_after_end_at_is_possible) and, asked in the second pass of a repeated hour, can first fire in the past (C66_first_in_the_past_is_possible).
* **C67** (proved). Finding: across the spring change the scheduler wakes an hour late (C67_an_hour_late_in_spring); the hoped-for 'never late' is false there.
* **C68** (proved). Proved for all combinations of given arguments (whole-second intervals for the first run, as in C04). Finding: the shift, e.g. a five-minute trigger object on a Berlin machine with a UTC scheduler first runs after two hours and five minutes (C68_default_start_late). Constant offsets here; changing ones in C65-C67.
* **C69** (proved). Exact. Finding: task_defaults with mistrigger_grace_time=None is dropped (exclude_none), so tasks get 1 second instead of no limit (C69_none_grace_default_is_one_second). Refusals are characterised by C69_refused_only_if.
* **C70** (proved). Exact, for every state and definition. Findings: a definition made paused is scheduled (C70_paused_definition_runs); Task(...) objects without a scheduler cannot decorate (C70_without_scheduler_raises).
* **C71** (proved). Proved. Outside the condition the order matters (C71_clash_depends_on_order): one order silently drops the longer key, the other raises.
* **C72** (proved). Proved. Finding: add_executor/add_store with a plugin pointing to a class of the wrong kind raises TypeError the first time and registers it from the second time on, because the class is remembered before it is checked (C72_wrong_plugin_accepted_later, for all such plugins).
* **C73** (proved). Proved, for every == on values. Finding: values that are equal in Python but different, such as true for 1, count as no change and are not applied (C73_equal_counts_as_no_change).
* **C74** (proved). Full statement, for every history.
* **C75** (partial). Refusal is characterised exactly. The call is proved the same for functions, classes, static methods, class methods of the defining class and methods of objects whose names lead to them. Refuted beyond that: an inherited class method comes back bound to the defining class, a callable object as its class, a method of an object that hides its class gets the object twice, a function with an attribute fn comes back as that attribute.
* **C76** (partial). Proved: who passes and who is sent where, login histories, pages under a prefix apart from the open paths. False of the code, with machine-checked refutations: a dashboard mounted at or below an open path (/static, /assets, /login) is open to everybody (C76_open_prefix_refuted); the form field next is used as it is, so a login can lead to another site (C76_open_redirect_refuted). Lilya's routing and cookie signing are not modelled; User's extra data must not use the keys id, name, is_admin.
* **C77** (partial). False of the code: "//" is normalized to the empty text (C77_slashes_refuted), and a dashboard cannot be mounted at / (AssertionError, C77_root_mount_refuted). Everything else proved. C77_links_carry_the_prefix assumes that no space is left inside the prefixes at their ends after the slashes are dropped (strip e = e). ipaddress network membership is a parameter.
* **C78** (proved). Not followed: an array where add/update want a dictionary (a list of pairs is one to dict()) and a trigger_pickle that is not text; unpickling itself always succeeds in the model. Exceptions of the read calls escape (500 without JSON), which the statement says.
* **C79** (partial). Refuted: a bound-method task cannot be posted back unchanged (C79_bound_method_refuted); a change of 1 to true counts as none (C79_equal_but_different_refuted); arguments JSON cannot write make the page fail, even after the change was applied (C79_applied_but_escapes_refuted). json.loads/dumps, float() and == are parameters; the round trip states what it needs of them. HTML and message texts are not modelled.
* **C80** (partial). Refuted: an unexpected exception in one press ends a bulk action, with nothing recorded for that task or the ones after it (C80_bulk_stops_refuted). Not covered: the scheduler in state STOPPED, and the id "" (which bulk forms can contain, C47). The bulk theorems need each id to be held by one store only.
* **C81** (partial). Refuted: a path that names None or another false object is recorded as created although nothing is (C81_recorded_but_not_created_refuted); malformed JSON is an error page and not recorded (C81_bad_json_not_recorded_refuted). Not modelled: paths naming Task objects, intervals too large for a timedelta; json.loads, fromisoformat and the import are parameters.
* **C82** (partial). Refuted as stated (C82_looking_refuted, and in general for every due one-shot task: C82_looking_loses_a_due_one_shot): looking at a store deletes due one-shot tasks, which never run. Proved: exactly which tasks are affected and how. Not modelled: functions that are not coroutines (they go to a thread); memory stores given with --store (they are empty).
* **C83** (partial). Refuted: run makes the coroutine begin but cancels it at its first wait, and a one-shot task is deleted nevertheless (C83_run_refuted, C83_run); add without --store loses the task (C83_add, second case); resume and add keep the run time only if it is later than the end of the process. With several stores holding the same id, which one is changed is left open. A change whose call raised never shuts its scheduler down (C83_shut_down).
* **C84** (partial). Refuted: the adapter writes its task id into the caller's extra dictionary, so two tasks sharing one dictionary have the second task's messages filed under the first (C84_shared_extra_refuted); messages of get_task_logger(id, name) with a name outside 'asyncz' and messages whose arguments do not fit are dropped silently (C84_outside_the_namespace, C84_unformattable_messages_vanish); installing the handler again at a lower level does not capture it (C84_lower_level_refuted). Proved: exactly which calls are captured, and as what, in every state (C84_what_is_captured); every ordinary call is (C84_task_logger_partial).
* **C87** (proved). Proved exactly. Finding: the order is surprising - the unprefixed environment variable beats the explicit argument, e.g. DEBUG=1 beats Settings(debug=False) (C87_environment_beats_arguments).
* **C88** (proved). Proved exactly. Finding: the internals __type_hints__ and __truthy__, annotated on BaseSettings, are dumped as if they were settings (C88_internals_are_dumped).
* **C89** (partial). Refuted as stated, twice: a process that dies between handing over and storing hands the run over again (C89_at_most_once_refuted), and one that dies with the run in its executor loses it (C89_handed_over_is_run_refuted). Proved for every history: no run time is skipped (C89_nothing_lost), repeats are bounded by the number of interruptions (C89_repeats_are_interruptions), exactly once and in order without interruptions (C89_exactly_once), a complete pass catches up (C89_catches_up), what is left behind never comes back (C89_never_again).
* **C90** (proved). Both halves for every state a process can die in (C90_kept, C90_replaced), with a concrete case (C90_case).
* **C91** (proved). Rows exactly (C91_timeline), nothing missed (C91_nothing_missed), first row (C91_next_run), bounds (C91_bounds), failures (C91_fails). C91_same_id_refuted shows that the hypothesis of unique ids is needed: the preview looks a task up by id only.
* **C92** (proved). C92_started_at, C92_doctor, C92_ready_after_start, C92_runtime. The counts are by the alias a task carries, which update_task can set to another store than the one that holds it (C92_counts_are_labels_refuted refutes the stronger reading that they are the stores' contents).
* **C93** (partial). True while every message fits into PIPE_BUF (C93_in_order, C93_never_stuck, C93_finitely_many) or only one process sends (C93_one_sender). Refuted for longer messages of two processes: send takes no lock, both messages can be lost and the receiving thread dies (C93_long_messages_refuted). A call that cannot be unpickled or that makes the logger raise ends the thread; from then on nothing is logged and workers hang once the pipe is full (C93_receiver_gone).
* **C94** (proved). C94_construct, C94_round_trip and C94_dump_fails are exact. Findings: an attrs class with a private field does not take its own dump back (C94_attrs_private_refuted); a field outside __init__ is listed as required although it cannot be given (C94_required_but_refused_refuted); AttrsShape.dump lets a bare AttributeError escape (C94_dump_fails). PydanticShape and MsgspecShape are not modelled.
* **C95** (proved). C95_preview_exact, C95_preview_agrees, C95_snapshot. Findings: the preview can promise what the worker refuses, because it cannot look at the callable (C95_worker_may_refuse_refuted); editing only the arguments of a task named by another path changes the reference at the worker unseen (C95_reference_moves_refuted); a refused edit leaves the stand-in half changed (C95_refused_edit_is_half_done; the pages edit a copy).
* **C96** (partial). Proved: C96_reloads_when_changed, C96_lives, C96_interrupted, C96_one_shot, C96_at_most_one_and_one_leaving, C96_order, C96_running_partial (none left at the end unless an on_start hook or the last on_stop hook failed). False in the code: a failing on_start hook (first start or reload) or last on_stop hook leaves a scheduler running (C96_nothing_left_refuted); the old and the new scheduler overlap, since shutdown is deferred to the event loop (C96_never_two_refuted); a failing reload calls on_stop twice for one start (C96_one_stop_each_refuted). Scoped: interrupts that reach the coroutine.
* **C97** (partial). C97_load, C97_same_scheduler, C97_one_more_user_partial (scoped to runs in which no module reload fails), C97_stop_hook_calls. False in the code: a failing reload releases the scheduler twice, stopping it under its other users (C97_others_keep_it_refuted). --watch is announced as ignored but on_stop is called at every change (C97_stop_hook_calls).
* **C98** (partial). Proved for all histories: C98_history_query, C98_latest_run, C98_counts, C98_history_page, C98_audit_page, C98_events_page, C98_last_report, C98_history_detail, C98_overview. False in the code: for a task with id "" any task's last run is shown, and tasks with the same id in two stores share runs (C98_other_tasks_run_refuted).
* **C99** (partial). Proved for all histories with atomic mounts and numeric masks: C99_events_recorded_partial, C99_runs_recorded_partial (run keys without "|" and an injective digest, as in C45), C99_of_interest, C99_record, C99_category_partial. False in the code: an event dispatched while a scheduler is mounted again is recorded nowhere (C99_remount_gap_refuted); a listener added earlier with a string for a mask silences the dashboard (C99_string_mask_refuted); with two storages every page shows the one mounted last (C99_second_mount_refuted); the removal of all tasks, named task.all_removed, is filed under "scheduler" (C99_category_refuted).
* **C100** (partial). Proved for all paired histories of AsyncIOScheduler in which no start falls into the middle of a shutdown: C100_one_loop, C100_calls_answer, C100_shutdown_completes, C100_closed_loops, C100_sessions; for NativeAsyncIOScheduler the answers of start and shutdown (C100_native_calls_answer) and exactly when its shutdown returns (C100_native_shutdown_waits). False in the code: a start in the middle of a shutdown leaves a running scheduler without a loop (C100_start_during_shutdown_refuted); a shutdown too many corrupts the count or raises AttributeError (C100_shutdown_too_many_refuted); NativeAsyncIOScheduler with an isolated loop leaves a running thread behind for every user but the last (C100_native_threads_refuted), and its shutdown waits for ever if its loop is asleep (C100_native_shutdown_hangs_refuted).
* **C101** (partial). Exactly which ids work is proved for each kind of link: C101_details, C101_edit, C101_buttons, C101_logs, C101_history (each an equivalence over all ids), with C101_simple_ids for ids of letters, digits and - _ . ~ (ids asyncz makes are such) and C101_run_links. For other ids the claim is false in the code, which writes ids into references unescaped: the Remove button beside "x/../b" removes "b", the Run button beside "b/remove?" removes "b" (C101_other_task_refuted); with the dashboard at the root of its host every prefixed link leaves it (C101_root_refuted). Whether the details of a task called "create" can be opened depends on the router (goes_on).
* **C102** (partial). Proved: C102_shown_by_the_answer, C102_at_most_once, C102_press_says, C102_run_says, C102_page_text (whole pages: every text, thanks to the engine's escaping). In front of the task table exactly the texts without the beginning of a tag are shown as they are (C102_banner_text_partial, an equivalence for texts without an ampersand; C102_banner_markup). False in the code: the banner is built without escaping, so an id such as <img src=x> becomes markup (C102_markup_refuted); a message whose request ended in an exception is swallowed by a refresh of the history or log table (C102_lost_refuted). C102_banner_look: every message gets a numbered box in the colour of its level, with its icon and a button naming the box.
* **C103** (partial). Proved: C103_filters_kept (refresh, turns, bulk and row buttons), C103_next_shows_all (lists of up to ten thousand pages), C103_previous_leads_back, C103_list_shows_matches (with the failure for states and orders it does not know). False in the code: the create form carries no suffix, so its answer shows the unfiltered list (C103_create_forgets_refuted); page numbers are cut at 10000, so on longer lists Next leads to the same page again and the rest is never shown (C103_last_pages_refuted).
* **C104** (partial). Proved for all programs of calls (Handles.v: every Task object has an identity): C104_objects_are_values (each call does to the attributes what the same call of Scheduler.v does to values, so the properties proved there hold with shared objects), C104_answered_object_is_current, C104_holder_and_store_share, C104_same_object, C104_ids_stay, C104_handle_acts_on_itself (memory stores). False in the code: with a durable store every look-up builds a new Task, so the caller's own stays as it was, even after its own pause() (C104_durable_handle_stale_refuted); a Task that was replaced still acts on the task that took its place (C104_replaced_handle_refuted); update(store_alias=...) renames the store on the Task without moving it, and from then on its pause() and delete() raise TaskLookupError (C104_renamed_store_refuted). Left out: a start that fails half-way (it leaves next run times on pending objects that stay pending), Tasks of other schedulers, a caller assigning to attributes directly; executors read fn and arguments from the object when they run it, so an update between submission and run affects that run. C104_added_once: adding an object uses it up, after any further calls. C104_handle_schedules_itself: resume() and reschedule() of the Task held.
* **C105** (proved). Proved for all dictionaries, values and histories of setups: C105_options (accepted exactly when, and what each option is then), C105_last_setup_decides (only identity and shape can be left of earlier setups), C105_identity_kept (also over refused setups), C105_refused_setup (options before the offending one as configured, the others untouched; the exception says what was wrong with it), C105_defaults_reach_tasks (with C69), C105_created and C105_usual_options (what the constructor makes). Worth knowing: a refused setup has already changed the scheduler, and a setup without time zone, lock path or task defaults goes back to the usual ones rather than keeping the earlier. Left out: loggers_class, task_defaults that a custom Shape changes, what executors and stores are configured (C72).

## Print Assumptions

`Print Assumptions` was run on each of the 492 theorems named in `MANIFEST.json`; the answer for every one of them is:

    Closed under the global context

So no theorem rests on any axiom, of the standard library or otherwise. (`vcheck` also lists the constants of the module type `Coq.ssr.ssrunder.Under_rel`, which the standard library loads transitively; no theorem uses them, as the output above shows.)

Theorems covered:

* C01: `C01_memory_store_is_a_map`
* C02: `C02_memory_store_due_exact`
* C03: `C03_sqlalchemy_store_is_a_map`, `C03_mongodb_store_is_a_map`, `C03_redis_store_is_a_map`, `C03_file_store_is_a_map`, `C03_redis_before_1970_refuted`, `C03_file_failed_update_refuted`, `C03_file_failed_add_refuted`, `C03_memory_update_absent_refuted`
* C04: `C04_interval_first_fire`, `C04_interval_next_fire`, `C04_fractional_interval_refuted`, `C04_interval_on_grid_partial`, `C04_interval_units`, `C04_default_start`
* C05: `C05_date_fires_once`
* C06: `C06_jitter_bounds`
* C07: `C07_and_children_agree`, `C07_and_none`
* C08: `C08_or_is_minimum`, `C08_or_order_irrelevant`
* C09: `C09_cron_least_match`
* C10: `C10_expression_next_is_least`, `C10_field_next_is_least`
* C11: `C11_cron_terminates`
* C12: `C12_defaults`, `C12_one_text`, `C12_from_crontab`
* C13: `C13_run_times_are_fire_times`, `C13_no_loss_no_repeat`, `C13_increasing`, `C13_terminates`
* C14: `C14_coalesce`
* C15: `C15_nothing_left_due`, `C15_jittered_advances`, `C15_fails_only_with_a_trigger`, `C15_jitter_refuted`, `C15_empty_id_refuted`
* C16: `C16_wakes_up_in_time`
* C17: `C17_paused_scheduler`, `C17_only_due_tasks_submitted`
* C18: `C18_never_more_than_max_instances`, `C18_one_submission`
* C19: `C19_limit_never_exceeded`, `C19_counter_exact_at_rest`, `C19_decides_on_true_count`, `C19_two_executors_refuted`
* C20: `C20_one_outcome_per_run_time`, `C20_events_unless_a_call_escapes`, `C20_no_grace_never_missed`, `C20_events_are_announced`, `C20_escaping_call_refuted`
* C21: `C21_every_due_task_handled`
* C22: `C22_unreadable_stores_do_not_matter`
* C23: `C23_update_atomic`, `C23_refused_only_if_invalid`
* C24: `C24_accepted_exactly_when`, `C24_accepted_call_binds`, `C24_refused_call_fails_or`, `C24_refused_although_it_binds`
* C25: `C25_same_function`, `C25_round_trip_partial`, `C25_interval_before_start_partial`, `C25_interval_refuted`, `C25_shutdown_refuted`, `C25_record_format`, `C25_unregistered_shape_refuted`, `C25_refused`
* C26: `C26_add_task`, `C26_only_once`
* C27: `C27_added_while_stopped`, `C27_installed_at_start`, `C27_all_present`, `C27_last_replacement_wins`, `C27_otherwise_the_first_wins`, `C27_start_fails`
* C28: `C28_what_start_does`, `C28_what_shutdown_does`, `C28_other_calls`, `C28_reference_counted`, `C28_inner_calls_only_count`, `C28_extra_shutdown_counts`, `C28_failed_start_counts`
* C29: `C29_shutdown`, `C29_when`, `C29_stopped`
* C30: `C30_pause_and_resume`, `C30_stopped`
* C31: `C31_resume_task`, `C31_reschedule_task`, `C31_pending_refuted`
* C32: `C32_run_task`, `C32_stopped`
* C33: `C33_delete`, `C33_delete_pending`, `C33_empty_id_refuted`, `C33_remove_all`
* C34: `C34_preview`, `C34_increasing`, `C34_truthful`
* C35: `C35_complete_and_filtered`, `C35_sorted`, `C35_stable`, `C35_snapshot_describes_the_task`, `C35_invalid_queries`, `C35_counts_add_up`
* C36: `C36_delivery`, `C36_returns`, `C36_remove_listener`, `C36_add_listener`, `C36_masks`, `C36_string_mask_observation`
* C37: `C37_add_executor`, `C37_add_store`, `C37_remove_executor`, `C37_remove_store`, `C37_started_once`, `C37_failed_start_refuted`
* C38: `C38_one_timer`, `C38_timer_of_latest_processing`, `C38_none_after_shutdown`, `C38_queued_wakeup_after_shutdown`
* C39: `C39_round_trip`, `C39_no_key_verbatim`, `C39_altered_is_rejected`, `C39_other_key_rejected`, `C39_rejected_before_unpickling`
* C40: `C40_actions_are_the_operation`, `C40_other_tasks_intact_partial`, `C40_written_task_old_new_or_lost_partial`, `C40_update_crash_loses_the_task_refuted`
* C41: `C41_idle_tasks_safe_partial`, `C41_reader_deletes_task_being_updated_refuted`, `C41_lookup_deletes_task_being_added_refuted`, `C41_updates_mix_refuted`, `C41_locks_exclude`, `C41_flushed_updates_safe_partial`
* C42: `C42_accepted_names_stay_inside`, `C42_distinct_ids_distinct_files`, `C42_only_its_own_files_change`
* C43: `C43_threads_exclusive`, `C43_threads_released_partial`, `C43_exception_keeps_lock_forever_refuted`, `C43_same_thread_not_excluded_refuted`, `C43_files_exclusive_partial`, `C43_files_exclusive_per_file_partial`, `C43_files_released`, `C43_files_death`, `C43_shutdown_breaks_exclusion_refuted`
* C44: `C44_logs`, `C44_events`, `C44_audit`, `C44_queries_change_nothing`, `C44_audit_queries_change_nothing`
* C45: `C45_one_record_per_run_partial`, `C45_submission_splits_partial`, `C45_one_event_partial`, `C45_separator_collides_refuted`, `C45_racing_submission_partial`, `C45_racing_submission_refuted`
* C46: `C46_page`, `C46_pages_partition`, `C46_parameters`
* C47: `C47_distinct_partial`, `C47_comma_text_partial`, `C47_json_text_partial`, `C47_list_partial`, `C47_bytes_partial`, `C47_empty_and_space_refuted`
* C48: `C48_registry_history`, `C48_resolution`, `C48_never_silently_replaces`, `C48_builtin_shapes`
* C49: `C49_executors`, `C49_stores`, `C49_duration`, `C49_trigger`, `C49_watch`
* C50: `C50_rejected`, `C50_client`
* C51: `C51_text`, `C51_fraction_refuted`, `C51_ceil`
* C52: `C52_first_fire_time`, `C52_and_returns`
* C53: `C53_cron_next_fire_time`, `C53_or_interval_loses_fires`, `C53_next_fire_time`, `C53_or_date_lost`
* C54: `C54_and_hangs`, `C54_and_two_three_hangs`, `C54_and_date_hangs`, `C54_otherwise_never_returns`, `C54_and_returns_iff`
* C55: `C55_fire_times_increase`, `C55_now_irrelevant`
* C56: `C56_update`, `C56_update_pending`, `C56_pause_task`
* C57: `C57_never_oversleeps`, `C57_caught_up_at_the_next_processing`, `C57_forced_run_is_overslept`
* C58: `C58_documented_forms_accepted`, `C58_only_documented_forms_with_tail`, `C58_tails_are_accepted`, `C58_comma_lists`, `C58_accepted_exactly`, `C58_refused_with_ValueError`
* C59: `C59_interval`, `C59_interval_length`, `C59_cron`, `C59_date`, `C59_other`
* C60: `C60_dump_keeps_data`, `C60_dump_is_plain`, `C60_exclude_none`, `C60_plain_unchanged`
* C61: `C61_same_as_local`, `C61_unreachable_ids`, `C61_slash_misroutes`, `C61_incomplete_errors`
* C62: `C62_add`, `C62_explicit_none_is_lost`
* C63: `C63_catch_up_count`, `C63_all_due_none_missing`, `C63_negative_interval_never_ends`
* C64: `C64_nothing_can_be_loaded_refuted`, `C64_empty_partial`
* C65: `C65_cron_clock_changes_partial`, `C65_skipped_hour_refuted`, `C65_repeated_hour_skipped_refuted`, `C65_answer_in_the_past_refuted`
* C66: `C66_next_on_the_clock`, `C66_next_exact`, `C66_next_later`, `C66_first_on_the_clock`, `C66_hour_apart_is_false`, `C66_after_end_at_is_possible`, `C66_first_in_the_past_is_possible`, `C66_instants_are_kept`
* C67: `C67_woken`, `C67_wait_exact`, `C67_never_late_when_put_back`, `C67_late_by_the_change`, `C67_an_hour_late_in_spring`
* C68: `C68_given_dates`, `C68_one_zone_in_force`, `C68_default_start_own_zone`, `C68_default_start_late`, `C68_default_start`
* C69: `C69_added_as_described`, `C69_refused_only_if`, `C69_none_grace_default_is_one_second`
* C70: `C70_decorating_is_adding`, `C70_definition_changes_nothing`, `C70_without_scheduler_raises`, `C70_paused_definition_runs`
* C71: `C71_dotted_keys`, `C71_order_does_not_matter`, `C71_clash_depends_on_order`, `C71_only_when_stopped`
* C72: `C72_configured_as_described`, `C72_accepted_iff`, `C72_bad_executor_keeps_stores`, `C72_by_plugin_alias`, `C72_wrong_plugin_accepted_later`
* C73: `C73_nothing_unless_applied`, `C73_shown_as_asked`, `C73_applied_as_shown`, `C73_refused_only_if`, `C73_equal_counts_as_no_change`
* C74: `C74_same_scheduler`, `C74_what_the_path_gives`, `C74_retries`
* C75: `C75_refused_iff`, `C75_same_call_partial`, `C75_by_reference_partial`, `C75_inherited_class_method_refuted`, `C75_callable_object_refuted`, `C75_hidden_class_refuted`, `C75_attribute_fn_refuted`
* C76: `C76_who_passes`, `C76_others_are_sent_to_login`, `C76_pages_need_login_partial`, `C76_open_prefix_refuted`, `C76_login_history`, `C76_every_history_has_its_user`, `C76_where_login_leads`, `C76_open_redirect_refuted`
* C77: `C77_written_prefixes_partial`, `C77_every_text_but_slashes`, `C77_slashes_refuted`, `C77_links_carry_the_prefix`, `C77_strangers_change_nothing`, `C77_trusted_prefix_in_front`, `C77_no_prefix_no_change`, `C77_last_header`, `C77_mount_point`, `C77_root_mount_refuted`, `C77_security_headers`, `C77_default_headers`
* C78: `C78_one_call`, `C78_unambiguous`, `C78_unknown_action`
* C79: `C79_nothing_unless_recorded`, `C79_unknown_task`, `C79_refused`, `C79_shown_as_asked`, `C79_applied_as_shown`, `C79_escapes_only_if`, `C79_round_trip`, `C79_bound_method_refuted`, `C79_equal_but_different_refuted`, `C79_applied_but_escapes_refuted`
* C80: `C80_press_partial`, `C80_bulk_partial`, `C80_bulk_stops_refuted`, `C80_bulk_remove`, `C80_bulk_pause`
* C81: `C81_created_as_asked_partial`, `C81_otherwise_nothing`, `C81_why_not`, `C81_recorded_but_not_created_refuted`, `C81_bad_json_not_recorded_refuted`
* C82: `C82_what_is_not_due_is_left_alone`, `C82_looking_is_a_pass_over_the_due`, `C82_nothing_begins`, `C82_looking_loses_a_due_one_shot`, `C82_looking_refuted`
* C83: `C83_other_tasks_left_alone`, `C83_pause`, `C83_remove`, `C83_resume`, `C83_run`, `C83_add`, `C83_run_refuted`, `C83_shut_down`
* C84: `C84_what_is_captured`, `C84_task_logger_partial`, `C84_installing`, `C84_notset`, `C84_positive_level`, `C84_mounting`, `C84_outside_the_namespace`, `C84_unformattable_messages_vanish`, `C84_shared_extra_refuted`, `C84_lower_level_refuted`
* C85: `C85_logs_page`, `C85_looking_changes_nothing`
* C86: `C86_logs_of_a_run`
* C87: `C87_resolution`, `C87_environment_beats_arguments`
* C88: `C88_dict`, `C88_properties`, `C88_asyncz_settings`, `C88_internals_are_dumped`
* C89: `C89_nothing_lost`, `C89_repeats_are_interruptions`, `C89_exactly_once`, `C89_catches_up`, `C89_never_again`, `C89_at_most_once_refuted`, `C89_handed_over_is_run_refuted`
* C90: `C90_kept`, `C90_replaced`
* C91: `C91_timeline`, `C91_nothing_missed`, `C91_next_run`, `C91_bounds`, `C91_fails`, `C91_same_id_refuted`
* C92: `C92_started_at`, `C92_doctor`, `C92_checks`, `C92_ready_after_start`, `C92_runtime`, `C92_counts_are_labels_refuted`
* C93: `C93_in_order`, `C93_never_stuck`, `C93_finitely_many`, `C93_one_sender`, `C93_receiver_gone`, `C93_long_messages_refuted`
* C94: `C94_construct`, `C94_construct_ordinary`, `C94_instances`, `C94_others`, `C94_round_trip`, `C94_dump_fails`, `C94_fields`, `C94_required_but_refused_refuted`, `C94_attrs_private_refuted`
* C95: `C95_preview_exact`, `C95_snapshot`, `C95_worker_snapshot`, `C95_preview_agrees`, `C95_worker_may_refuse_refuted`, `C95_reference_moves_refuted`, `C95_refused_edit_is_half_done`
* C96: `C96_reloads_when_changed`, `C96_at_most_one_and_one_leaving`, `C96_order`, `C96_running_partial`, `C96_lives`, `C96_interrupted`, `C96_one_shot`, `C96_never_two_refuted`, `C96_nothing_left_refuted`, `C96_one_stop_each_refuted`
* C97: `C97_load`, `C97_same_scheduler`, `C97_one_more_user_partial`, `C97_stop_hook_calls`, `C97_others_keep_it_refuted`
* C98: `C98_history_query`, `C98_latest_run`, `C98_counts`, `C98_history_page`, `C98_audit_page`, `C98_events_page`, `C98_last_report`, `C98_history_detail`, `C98_overview`, `C98_other_tasks_run_refuted`
* C99: `C99_events_recorded_partial`, `C99_of_interest`, `C99_record`, `C99_category_partial`, `C99_category_refuted`, `C99_runs_recorded_partial`, `C99_remount_gap_refuted`, `C99_string_mask_refuted`, `C99_second_mount_refuted`
* C100: `C100_one_loop`, `C100_calls_answer`, `C100_timer_wakes`, `C100_shutdown_completes`, `C100_sessions`, `C100_start_during_shutdown_refuted`, `C100_shutdown_too_many_refuted`, `C100_native_threads_refuted`, `C100_native_calls_answer`, `C100_native_shutdown_waits`, `C100_closed_loops`, `C100_native_shutdown_hangs_refuted`
* C101: `C101_details`, `C101_edit`, `C101_buttons`, `C101_logs`, `C101_history`, `C101_simple_ids`, `C101_run_links`, `C101_controls`, `C101_turns`, `C101_other_task_refuted`, `C101_root_refuted`
* C102: `C102_shown_by_the_answer`, `C102_at_most_once`, `C102_lost_refuted`, `C102_press_says`, `C102_run_says`, `C102_banner_text_partial`, `C102_banner_markup`, `C102_page_text`, `C102_markup_refuted`, `C102_banner_look`
* C103: `C103_filters_kept`, `C103_create_forgets_refuted`, `C103_next_shows_all`, `C103_previous_leads_back`, `C103_last_pages_refuted`, `C103_list_shows_matches`, `C103_blanks_do_not_matter`
* C104: `C104_objects_are_values`, `C104_answered_object_is_current`, `C104_holder_and_store_share`, `C104_same_object`, `C104_ids_stay`, `C104_handle_acts_on_itself`, `C104_added_once`, `C104_handle_schedules_itself`, `C104_durable_handle_stale_refuted`, `C104_replaced_handle_refuted`, `C104_renamed_store_refuted`
* C105: `C105_options`, `C105_last_setup_decides`, `C105_identity_kept`, `C105_refused_setup`, `C105_defaults_reach_tasks`, `C105_created`, `C105_usual_options`
