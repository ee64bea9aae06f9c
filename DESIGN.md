# DESIGN — a Rocq (Coq 8.16) model of cainmagi/sync-stream 1.2.2

Source: `/repo/syncstream/{base,mproc,file,host,webtools,utils}.py`, read as text.
Nothing of the project is executed; the semantics of the Python standard library
primitives that the model uses (str.splitlines, io.StringIO, collections.deque, ...)
were read from the Python documentation and checked against the stdlib of CPython 3.11.

## 1. Shape of the model

Every method is a value of a free monad `prog C A` (file `Prog.v`): a tree of *atomic
commands* on shared objects (`acquire`, `last_line.tell()`, `storage.popleft()`,
`queue.put(..)`, `os.rename(..)`, `http request` ...), with a normal and an exceptional
continuation per command. One text of each method therefore serves three semantics:

* **sequential**: `run t p s` executes the program to completion (result, exception, or
  *blocked* on a lock / empty queue);
* **concurrent**: a pool of programs, one command of one thread per step, any schedule;
* **crash**: the states reached by executing any prefix of the commands.

`with lock:` is `acquire; try body finally release`; Python exceptions are values
(`exn`); mutations performed before an exception are kept.

Objects are modelled concretely: `io.StringIO` = (text, position, closed) with
overwrite-at-position semantics, `collections.deque(maxlen)` with eviction on both ends and
`rotate`, a FIFO queue, a lock with owner (and recursion count for RLock), a directory =
finite map (directory, name) -> text, JSON values, the HTTP service = the handler programs.
Text is a list of code points (`list N`).

| file | content |
|---|---|
| `PyStr` | code points, line breaks, `splitlines`, `strip`, decimal formatting |
| `PyIO` | `io.StringIO`, `collections.deque` |
| `Prog` | free monad of commands; sequential run, pool semantics, crash prefixes |
| `Base` | base.py: line-break test, `GroupedMessage`, (de)serialization; JSON values |
| `LineBuf`, `Override` | mproc.py `_LineBuffer`, `LineBuffer`; subclasses overriding `parse_lines` |
| `Proc`, `ProcPool` (start) | mproc.py `LineProcMirror`, `LineProcBuffer`, the multi-process system |
| `FileBuf` | file.py, the directory, `glob`/`fnmatch`, `os.path.splitext`/`split` |
| `Host` | host.py server side: `LineHostBuffer`, the two Flask views |
| `HostCli`, `HostLazy` | host.py clients: `LineHostMirror` (lock given / lock created lazily), `LineHostReader` |
| `Flaky*` | every method, and the view functions of the service, with exceptions from outside before any command |
| `HostNet` | the same with pools of connections, responses and finalizers; webtools.py |
| `Reader` | pools of connections of a `LineHostReader`, webtools.py `SafePoolManager` |
| `Json`, `JsonText` | what JSON does to a value; `json.dumps`/`json.loads` character by character |
| `Okp` | logic for pools: what the commands of a program are given, what a program returns |
| `HostJson`, `WriteRet` | its uses: every answer of the service is a value that JSON can write (C64); what write() returns in any execution (C10, C22) |
| `Ctx` | context managers, `redirect_stdout`/`redirect_stderr`, `sys.stdout`/`sys.stderr` |
| `Print`, `PrintPool`, `PrintThr`, `PrintCli`, `PrintLogs` | Python code that prints inside contexts, for all classes of the package; the same as a program with steps, and processes of such code; threads of one process with shared sys.stdout and sys.stderr; clients of one service; processes on one log |
| `Lazy`, `LazyCls`, `LazyInit`, `LazyRepr`, `LazyFrom` | utils.py; lazy attributes used as classes; the set-up in `__init__.py`; what the objects show; from-imports of them |
| `LazyThr` | threads that use lazy modules and lazy attributes, with the locks of importlib's `_LazyModule` |
| `LazyImp*` | threads that call `lazy_import` |
| `LazyDots*` | `lazy_import` of modules in packages, with the packages that importlib imports first |
| `Kill`, `KillRely`, `KillFile*` | executions in which processes are killed; logic for them; processes on one log |
| `KillLock`, `KillOwn`, `KillProc*` | locks whose holder is dead; which locks a process uses; killed processes with mirrors |
| `KillHost*` | killed clients of the host service |
| `KillRecover` | force_stop(), wait(), reset_states() after kills |
| `WaitStopSpec`, `WaitStop` | force_stop() during wait() while all the others go on |
| `Headers*` | the HTTP headers of the clients |
| `Timeout*` | the two attributes behind the timeout of a `LineProcMirror` |
| `Spec`, `*Spec`, `FileStmt`, `LineBufConc` | vocabulary of the statements (small, independent of the code where possible) |
| `ProgFacts`, `Conc`, `ReentConc`, `Locks`, `Held`, `Atomic`, `Crash`, `Serial`, `Stable`, `Sections`, `Rely`, `LocksOk` | generic theory: lock reduction (critical sections are atomic, also several per call), deadlock freedom, finiteness, crash points, serializability with owned data; rely/guarantee over whole states; deadlock freedom when the locks depend on results |
| `*Facts`, `*Proofs`, `*Conc`, `Proc{Main,Seq,Hist,Transp,More,...}`, `FileMore`, `FileCrash`, `HostCliFlag`, `LazyFuel`, `LazyThr{Inv,Main,Lock,Cases}`, `ProcRun`, `Strip`, `HostInt`, `Print{Proc,File,Host}`, `ProcGen`, `Mir{Close,Sect,Ledger}` | lemmas |
| `Prop*` | the property theorems `Cnn_...`, each closed by `exact lemma` (or a computed witness), with `Example`s and `Print Assumptions` |

The statements use the model (to say what is called) and the `*Spec` files (to say what
should happen); a theorem `..._refuted` exhibits an execution in which a claim of the
documentation is false, next to the theorem that says what the code does instead.

## 2. Plan per property

| id | modelled | proof |
|---|---|---|
| C01-C03 | `_LineBuffer.__write/new_line/clear/read` over StringIO+deque | refinement to `Spec.v` log: declarative segmentation relation `segments`; invariant; induction on the operation list; C03 exact CRLF exception, refutation witness |
| C04-C08, C10-C13 | same | invariant + refinement corollaries |
| C09 | `__len__` with the truthiness of StringIO (always true) | exact formula + `_refuted` |
| C14 | constructors with Python argument values | case analysis + invariant over histories |
| C15 | `write` parameterised by an arbitrary `parse_lines` program | induction; deadlock = `run` blocks |
| C16, C17 | pool semantics, lock with owner | reduction theorem (critical sections are atomic) + sequential refinement; progress invariant |
| C18-C20 | same pool semantics | `_refuted` witnesses by computing a schedule; bound for all schedules |
| C21-C24, C35 | mirror program, queue, `receive` | simulation between mirror+main and direct buffer; interleavings as `merge` relation |
| C25, C26, C30 | `wait` as iteration of `receive` on the queue | induction on the queue; system of producers and one consumer |
| C27-C29, C31-C34 | mirror/buffer programs | exact `run` results for all states |
| C36 | lock reference as a lazily initialised field (both mirror classes) | `_refuted` by schedule; reduction theorem for the initialised case; equivalence with a given lock when calls do not overlap |
| C37, C38 | file system commands, decimal names | refinement file log -> same `Spec.v` log |
| C39 | pool of processes over one file system with reader/writer lock, all calls (clear() and close() included) | reduction + private temporary files |
| C40, C41 | prefixes of the command sequence | case analysis over crash points, invariant "numbers sorted by age"; `_refuted` witnesses |
| C42, C43 | `glob`/`fnmatch`, name formatting | exact characterisation; injectivity; witnesses |
| C44-C46 | programs over the file system | exact results, witnesses |
| C47-C53, C55 | JSON values, handler programs, mirror programs with fault oracle | exact results; invariants; witnesses |
| C54, C56 | handlers under `config_lock` in the pool semantics | reduction theorem |
| C57, C58 | pool-object state machine; string functions | invariant; witnesses |
| C59, C60 | strings; context-manager state machine | induction on nesting |
| C61-C63 | module table state machine | invariant |
| C64 | JSON text encoder/decoder | codec round-trip proof |

| C65 | `len()` in the pool semantics | witness; bound for all schedules |
| C66-C68 | mirror switched to aggressive mode, pickling, closed main buffer | exact `run` results |
| C69, C70 | `splitext`, UTF-8 encodability | exact results, witness |
| C71 | error pages and client exceptions | exact results, witness |
| C72-C74 | dependencies and loading in utils.py | state machine of the module table |
| C75-C78 | `print()` inside `with`, exceptions, stop signals | big-step execution vs. a relation without stream state; per class an invariant over the writes |
| C79 | close() of several threads, without assumptions on the lock | invariants of single commands (`Stable`), witnesses by computing a schedule |
| C80 | all calls of a mirror under its lock | reduction for calls with several critical sections (`Sections`): commands outside of sections commute with a running section; events collected along the coarse execution |
| C81 | all calls of all threads on the main buffer and its mirrors | budget of increments and decrements carried along each program (`CountProofs.ctr`), witnesses by computing a schedule |
| C82 | all calls but reset_states() and send_data() | budget of texts under the knowledge that the flag is set (`StopProofs.bud`, `outc`), kept by every step |
| C83 | as C39, but any processes may have the same tmp_id; all calls | `Blocks.v`: critical sections of several locks as indivisible blocks with events, one invariant for the data under each lock; steps replayed by `FileTmpSpec.story` |
| C84 | lazy attributes in class statements, calls, isinstance() | programs over named objects; invariant: no lazy attribute among the classes of instances |
| C85 | `__init__.py` with any installed dependencies | three uses of C62 |
| C86 | as C80 for LineHostMirror, with requests of others and faults | invariant over single steps: per thread the phase of its critical section and what it still may do (`HostLedger.ok`); no reordering is needed, because requests change the service at once |
| C87 | pools, responses and finalizers of the host clients | log of events as ghost state; invariant over single steps (what each thread knows about its pool and response); simulation both ways with the model where a request is one command; sequential account of one mirror and one reader |
| C88 | every method of the stream classes with an exception of any kind before any command (`Flaky.v`) | the handlers of every program only release the locks it holds (`FlakyFacts.uw`), checked once per method; simulation with the prefixes of the undisturbed run, in both directions; locks as in C16 |
| C89 | the same for LineBuffer | what holds after every command (`Crash.alw`), invariant of every single command (`FlakyInv.safe`) |
| C90 | C75/C76 and C23–C25 together: code that prints, as a program with steps (`PrintPool.kprog`), several processes and wait() | `kprog` run alone is `kexec`; the pool theorem for arbitrary mirror programs (`ProcGen.v`) |
| C91 | threads of one process with shared sys.stdout/sys.stderr; one lookup per print() (`PrintThr.tcode`) | `Blocks.v`: attributes and consoles as parts used by single operations, each LineBuffer under its lock; `does_told`: the account of one thread whose attributes nobody else changes is that of C75 |
| C92 | C78 and C54 together: printing code of several clients as programs with steps (`PrintCli.v`), readers | `kprog` run alone is `kexec`; the pool theorem of C54 for arbitrary client programs (`HostCliConc.threads_any_time`) |
| C93 | readers next to mirrors, as C54 | every answer is tied to the state of the server it saw (`HostCliConc.answered`, `seen_along`); `reads_along` |
| C94 | C77 and C83 together: printing code of several processes on one log as programs with steps (`PrintLogs.v`), readers | `Blocks.blocks_any`: the block theorem at any moment of an execution (the run can be completed); steps of one process on its own temporary file |
| C95 | threads, each access a program with steps: `type()`, lookups, `load_deps`, the lock, the code of the module statement by statement (`LazyThr.v`) | rely/guarantee (`Rely.v`): what other threads may change while a thread holds a lock or not; one specification of all methods, by induction on the depth of calls (`LazyThrProofs.spec_go`) |
| C96 | the same, modules that use earlier ones | order of locks = order of modules (`LocksOk.v`: dependencies are read from the state); computed deadlock for two modules that use each other |
| C97 | the same, the layout of this package | computed executions; `stays`: what has ended does not change |
| C98 | pools with the death of processes between any two commands (`Kill.v`), the programs of C39 | rely/guarantee with deaths (`KillRely.v`): ghost history of records, position of every record file in it, set of processes that made a gap; progress as C39 after each death |
| C99 | pools with deaths, the programs of C23-C25, C82; locks of the dead stay acquired | a killed process is one that gets no more steps: invariant of C23 in two phases; `KillOwn`: only the state lock is shared, so the dead block nobody else; `KillLock`: what is behind a lock whose holder is dead is never reached |
| C100 | the clients of C54 and C92 with deaths | a killed client is one that gets no more steps: the invariant of `HostCliConc` in two phases (`sched_pinv` says who sent); each mirror has its own lock, so everybody can always step |
| C101 | the pools of C99; force_stop(), the rest of wait() and reset_states() run from the state that is left | `c23_main` (ProcPoolProofs): at any time the rest of wait() does, alone, what wait() does with the queue as it is; `main_frame`: it uses the two locks of the main process only; `known`: the messages in the queue are of the four kinds, so wait() reaches the marker |
| C102 | heap of dicts, ChainMaps as trees over it | invariant: the two stored dicts are as created and every mapping a user has begins with a dict of its own |
| C103 | `alw` over every handler, `safe` for the invariant | what a handler has done when it is left: the states before each of its commands, read off with `alw_bind`/`alw_with` |
| C104 | lazy_import as a program: every look at `sys.modules` and every change of it is a step (`LazyImp.v`) | rely/guarantee (`Rely.v`) with who made which module; `Okp` for the results; one thread alone is Lazy.v |
| C105 | names with dots: find_spec imports the packages first and asks them for `__path__` (`LazyDots.v`) | induction over the name; invariant that a module that ran is registered as loaded |
| C106 | `hal`: `alw` and the state at the end, for all locks (`FlakyProcGen.v`); lifted from a mirror or the buffer to the system | the states before each command of a method; `okq`/`nbs`: which calls end, with all locks free; `safe` for the invariant |
| C107 | every load and store of the two attributes is a step (`Timeout.v`) | `Okp` for any threads, rely/guarantee (`Rely.v`) for one setter; witnesses by computing a schedule |
| C108 | `hal` (C106) for the clients of the host service; the messages handled by the server stand for the queue | the states before each command and after each request that fails on the network; with the stop signal the request for it never lets the method go on |
| C109 | `alw` of every method, and the cut of C88 | the prefixes of C40 for `__write` after the first command of write(); frame of clear() over the list of glob |
| C110 | pools of callers (any calls on mirrors, force_stop(), stop_all_mirrors()) and the main process in wait() | `above`: a step of another thread only adds to the end of the queue, as far as the main process can see; `would`: before force_stop(), with the marker anywhere in the queue the rest of wait() would end; `onway`: after it, the number of commands left decreases with every step of the main process and with no other |
| C111 | worlds of Lazy.v, `mod_repr`, `attr_repr` | the look-ups of `__repr__` are of protected names, which load nothing in any class; names, modules and attributes of objects never change (`ext`) |
| C112 | worlds of Lazy.v, `from_import`, `star_import` | case analysis on the look-up; placeholders stay placeholders (`ext`), `__all__` is not protected, so it loads (`access_loads`); a name is bound iff the look-up in the filtered attributes finds it |

Every property is expressible in a model; the runtime behaviours that a model cannot
exhibit are listed in section 4.

## 3. Trusted base

* The Coq 8.16.1 kernel (with `vm_compute`, used for witnesses and concrete cases) and,
  for the independent check, `coqchk`.
* Axioms: `Print Assumptions` stands below every property theorem and answers "Closed under
  the global context" for each of them.  `coqchk`/`vcheck` list seven library entries
  `Coq.ssr.ssrunder.Under_rel.*` (`Under_rel`, `Under_relE`, `Under_rel_from_rel`,
  `under_rel_done`, `Over_rel`, `over_rel`, `over_rel_done`): opaque members of a module of
  Coq's own `ssreflect` library, which std++ loads; no theorem depends on them.
  No axiom, parameter, functor, plugin or disabled check is ours.  std++ (`gmap`) is used for
  finite maps; it is axiom-free.
* The statements: `properties.jsonl` in English, `Prop*.v` in Coq, the `*Spec.v` files they
  use, and the definitions of the model.
* The model is written by hand from the source text.  Each definition cites the lines.
  `tools/mutate.py` edits the model in a scratch copy (realistic bugs) and records which
  theorems fail (`seeded/LOG.jsonl`).
* The standard-library primitives: str, StringIO, deque, `queue`, `threading`/`multiprocessing`
  locks, `fasteners` reader/writer locks, `os.rename`/`os.remove`/`open`, `glob`, `json`,
  `contextlib`, `importlib`, the class statement and `isinstance()` (C84), modelled from their
  documentation and the CPython 3.11 sources.

## 4. What is modelled and what is not

| source | modelled | not modelled |
|---|---|---|
| base.py 45-57, 96-112, 168-218 | `is_end_line_break`, `is_serialized_grouped_message`, `GroupedMessage` | `__repr__`; `traceback.format_exception` (its result is a parameter) |
| base.py 124-165 | `redirect_stdout`, `redirect_stderr` (with contextlib) | deprecation of the parameters; custom `__exit__` of user targets |
| mproc.py 58-382 | every method of `_LineBuffer` and `LineBuffer` | `_data_type` (never read) |
| mproc.py 385-751 | every method of `LineProcMirror`; pickling | the transport inside the manager process |
| mproc.py 754-941 | every method of `LineProcBuffer` | as above |
| file.py 45-483 | every method of `LineFileBuffer`; directory, crash after any file-system operation or written character | Windows renames, directories that disappear (as causes of errors: C88); how fasteners implements its locks; non-UTF-8 locales |
| host.py 58-494 | every method of `LineHostMirror`; failed, lost, rejected requests | time-outs as time; redirections, retries of urllib3 |
| host.py 497-767 | every method and view of `LineHostBuffer` | Flask: routing, decoding, its error pages (a parameter) |
| host.py 770-1209 | every method of `LineHostReader` | as for the mirror |
| webtools.py 76-161 | life of pools, responses and finalizers (C57, C87) | the sockets of urllib3; `close_request_session` (unused) |
| `__init__.py` 42-75 | the lazy imports and exported names | the ordinary imports before them |
| utils.py 61-640 | `lazy_import`, placeholders, lazy attributes, `_LazyLoader`, `is_module_invalid` | messages of exceptions, `__doc__`; `__repr__` of modules that are not lazy (`LazyRepr` has the others); from-imports with an `__all__` set by code, or of loaded packages; code that edits `sys.modules`; with dotted names: imports made by the code of the modules; with threads: `lazy_import` next to attribute accesses, and attributes set from outside |
| `version.py`, `setup.py`, docker, tests | | not modelled |

Simplifications that matter (each one is repeated at its definition):

* one command = one call of a C-implemented method or one system call; CPython runs such a
  call without interruption (true with the GIL for the methods used);
* natural numbers for lengths and positions, no memory limit; `Z` for `int`;
* a text given to a file reaches the disk character by character (any prefix may be there
  after a crash);
* `str.casefold`/`int(str)` only on ASCII (host.py:712, 654); the theorems that use them
  speak about words and numbers written in ASCII;
* a request of a client is one command of the client pool: C56 says that the server
  serializes concurrent requests, and C87 that this agrees with the client's own steps;
* exceptions that the model of a command does not have (signals, `KeyboardInterrupt`,
  `MemoryError`, a full disk, a broken manager connection) are in C88, C89, C103, C106, C108, C109 and one theorem of C107.  There
  they come before or after a command, never in the middle of one (`deque.extend` is one),
  releasing a lock does not fail, no exception falls between acquiring a lock and the body
  of `with`, and a `queue.Empty` does not come from outside (mproc.py:705 would catch it);
* in C98 to C101 a process is killed between two commands; a request to the manager that is
  under way when its process dies counts as done before (a put) or, for the state lock, as
  the case "killed while it held the lock" of C99;
* in C101 no other process makes a step between force_stop() and the return of wait(); in
  C110 they do, but no other thread of the main process uses the buffer apart from
  force_stop() and stop_all_mirrors() (C20 shows what read() beside receive() can do);
* `wait()` and the loader recursion carry a fuel bound; theorems give the sufficient fuel
  (C25, C63_fuel, C95_depth).

## 5. Building

`cd rocq && coq_makefile -f _CoqProject -o Makefile && make -j4` (about two minutes).
`tools/gen_properties.py` writes `properties.jsonl`, `tools/gen_manifest.py` writes
`MANIFEST.json` from the theorem names in `Prop*.v` and `tools/notes.json`.
