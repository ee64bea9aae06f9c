{
 "C03": "C03_crlf_cut is the exact exception, C03_always_refuted the witness that the condition is needed.",
 "C09": "the shared base class, LineProcBuffer and LineHostBuffer (call and state \"curlen\"); docstring claim refuted.",
 "C10": "exact result; docstring claim refuted.",
 "C11": "closed_answer lists the answer of every public call; 'clear() should always success' refuted.",
 "C14": "LineBuffer, LineProcBuffer and LineFileBuffer. The maxlen of a LineFileBuffer is a constant of the modelled object (no method of file.py assigns it).",
 "C16": "every complete interleaved execution, any number of threads; the order is also the order of completion, hence it respects real time.",
 "C18": "thread-safety claim refuted by explicit schedules; the bound holds at every moment of every schedule.",
 "C19": "claims refuted by explicit schedules; a closed buffer is never re-opened (every schedule).",
 "C20": "both losses refuted by explicit schedules; receive() and read() alone are exact.",
 "C22": "C22_write_returns gives a case in which write() always returns; docstring claim (number of lines) refuted.",
 "C26": "C26_wait_exact gives exactly the messages handled by wait() for every queue and count; the documented behaviour is refuted by a concrete history.",
 "C28": "wait() is modelled with a fuel bound larger than the queue; Block = waits for a message that nobody sends.",
 "C32": "docstring claim refuted.",
 "C33": "C33_block_means_no_timeout covers every put of every method in every state; C33_full_queue says which calls wait or fail on a full queue of the model, C33_other_calls that no other call does; std_put is the stdlib queue.put with time; documented meaning refuted.",
 "C34": "LineBuffer, LineProcBuffer, LineFileBuffer and LineHostBuffer.",
 "C35": "order refuted by a concrete history; C35_order for one wait() call on any reachable system.",
 "C36": "Lock exists: any threads, any schedule, the calls write/read/new_line/clear/flush/closed/readable/writable are equivalent to one order (results, queue or server, held text, every prefix); send_eof/send_error/send_warning/close make several sections and are not covered by that theorem. For LineProcMirror the queue is unbounded or a timeout is set. C36_host_alone: without overlap the lazily created lock makes no difference, so C48-C55 may take the lock as given.",
 "C37": "Texts are encodable (no lone surrogates, see C70); for clear() the name has no glob characters (see C42). len() and close() differ between the two classes and are covered by C38/C45.",
 "C38": "For every directory content, including gaps and records with CR. Lock table arbitrary, only the two locks of the buffer are free.",
 "C39": "One buffer object and one thread per process, distinct tmp_id, locks (fasteners.InterProcessReaderWriterLock) modelled as correct reader-writer locks. C39_shared_log: writes, new_line, send_exc and the reading calls with equal maxlen. C39_shared_log_all_calls: all calls, equal maxlen; for clear() the path must contain no glob characters (see C42 for what happens otherwise). C39_serializable and C39_no_deadlock: all calls, any maxlen.",
 "C40": "Every file-system operation and every single written character is a command of the model; a crash is a prefix of the commands of the call. The operating system's own buffering (what a kill loses of an unflushed Python file buffer) is subsumed: a prefix of the text of the record being written.",
 "C41": "Witnesses: one crash inside write(), locks released, then a second process with the same path and tmp_id.",
 "C42": "Exact behaviour for names without *, ?, [; isolation refuted by a witness; a name with [ removes nothing (witness).",
 "C43": "Names are injective in (path, number); the collision of temporary names is a witness, together with its consequence (text leaks to the other log).",
 "C44": "One record, exact place; order refuted by a witness. The text of the exception must be encodable.",
 "C45": "closed for ever: over any history of any family of buffers.",
 "C46": "For logs without gaps, of any length.",
 "C47": "for every message; C47_json goes through the JSON text (messages without surrogate pairs split in two).",
 "C48": "exact items and answers of the reader for every state, also for a closed server buffer and for unreadable items; the trip through JSON joins surrogate pairs (C48_wire: nothing else).",
 "C49": "the answer of every request and the log it leaves, from every reachable state; C49_history composes them. The application's error pages and the str() of lists and dicts are parameters.",
 "C50": "exact behaviour; C50_robustness_refuted is the witness that one malformed request makes later GETs fail.",
 "C51": "server part in PropHost.v, reader part in PropHostCli.v; the property states a defect, so the theorems are exact.",
 "C52": "server part in PropHost.v; reader, mirrors, histories and concurrent executions in PropHostCli.v.",
 "C53": "both directions, for every held text and exception.",
 "C54": "every schedule of threads with mirrors and readers, at every moment (C54_any_time), no deadlock, no infinite execution; transparency for one mirror; the refuted theorem shows why surrogate pairs are excluded.",
 "C55": "exact behaviour for every pattern of failures; C55_once and C55_aggressive are consequences; the refuted theorem is the lost answer.",
 "C56": "every complete interleaved execution of requests and calls in the server process (except the base-class calls, which C18/C19 cover); order respects completion order.",
 "C58": "C58_endpoint gives the inferred name for every route; the refuted theorems are the collisions.",
 "C64": "json.dumps and json.loads are modelled character by character (floats excluded) and compared with CPython on about a thousand texts; exact for every value; the refuted theorem is the witness for lone surrogates.",
 "C65": "atomicity refuted by an explicit schedule; the range holds for every schedule.",
 "C67": "pickling modelled as the default (attributes in order of definition).",
 "C69": "Exact theorem for every directory, base name and suffixes without white space; witness.",
 "C70": "Exact for one unfinished line; the loss of visibility is a witness.",
 "C71": "exact exception for every error page; the refuted theorem is the witness with Flask's default pages (no JSON body).",
 "C57": "docstring claim (temporary pool without a context) and re-entering refuted; the number of pools is exact.",
 "C59": "every data value; the texts of the exceptions are those of the formatted traceback (traceback.format_exception is a parameter).",
 "C60": "LineBuffer contexts, threads with the shared sys.stdout/sys.stderr; re-entering and overlapping contexts refuted.",
 "C61": "one thread; every history of the operations of the model between the calls.",
 "C62": "the two hypotheses missing/available exclude finders that raise; later required=True refuted.",
 "C63": "C63_fuel: the recursion bound of the model is no restriction; the value None is the exception (refuted).",
 "C72": "found while modelling; needs find_spec's ValueError for modules without __spec__ (CPython).",
 "C73": "holds for failed and successful loads; CPython 3.11.9 and later (is_loading is never reset).",
 "C74": "docstring claim refuted.",
 "C75": "told (PrintSpec.v) has no state of the streams: the innermost context decides; C75_routing is for arbitrary objects.",
 "C76": "exact behaviour in both cases of the stop signal; two refuted theorems for the docstring of stop_all_mirrors(). Other methods are not called inside the block.",
 "C77": "records and unfinished line exactly; order of text and exception refuted.",
 "C78": "exact behaviour; two refuted theorems for the docstring of stop_all_mirrors(); no failed requests inside the block (C55 has those).",
 "C79": "all calls, also on mirrors without a lock yet and with bounded queues; three refuted theorems.",
 "C80": "all calls except the setters of aggressive and timeout; lock exists (first use: C36); unbounded queue; four refuted theorems.",
 "C81": "all calls of all threads, any initial state; two refuted theorems, both need a thread switch inside n_mirrors += 1 / -= 1.",
 "C82": "all calls but reset_states() and send_data(); any initial state in which every mirror has the shared state; the kind of exception is in C27 (calls one after the other).",
 "C83": "all calls; one open buffer object per process; the four things that go wrong with equal ids are witnessed in C83_unfinished_refuted.",
 "C84": "semantics of class statements and isinstance() on objects that are no classes: CPython 3.11 (trusted). Docstring of parse_lines refuted for the exported name.",
 "C85": "the branches for TYPE_CHECKING = False.",
 "C86": "all methods of the mirror; the attribute aggressive keeps its value; lock exists (first use: C36); four refuted theorems.",
 "C87": "all methods of mirrors and readers in any threads; the objects of urllib3 are taken as what the library documents (DESIGN.md); __del__ and finalizers happen as a step KGone; three refuted theorems.",
 "C88": "simplifications of Flaky.v (DESIGN.md section 4); three refuted theorems.",
 "C89": "LineBuffer; exceptions before or after a command, not inside (deque.extend is one command); three refuted theorems.",
 "C90": "unbounded queue, one mirror per process, the mirrors are new; other streams accept every text; one refuted theorem.",
 "C91": "one lookup of sys.stdout per print(); streams other than LineBuffers accept a text in one step; three refuted theorems.",
 "C92": "no faults; one mirror per client, with an initialised lock (first use: C36); other streams accept every text; two refuted theorems.",
 "C93": "no faults and nobody calls clear() (C47, C54 have it); the sequence of snapshots is also part of C54_any_time.",
 "C94": "buffers that are not closed while processes print into them; other streams accept every text; a process between two steps of a change of the records holds their lock; one refuted theorem.",
 "C95": "importlib of CPython 3.11.9 and later; lookups in __dict__ and type() are single steps; None as value of an attribute and lazy_import() next to the threads are left out; names that lookups treat specially (protected_kw) only where said.",
 "C96": "force_load() and lazy attributes included; one refuted theorem.",
 "C97": "three refuted theorems for two threads; what the interpreter looks up before 'from module import name' is left out.",
 "C98": "one thread per process; clear() and close() only in C98_progress; order and retention for calls that complete at most one line each (line_by_line); two refuted theorems.",
 "C99": "one thread per process; the processes use one mirror each; a request to the manager is not cut by the death of its process (DESIGN.md section 4); two refuted theorems.",
 "C100": "one thread per client; a request is one command, a client that dies while it waits for the answer died after the request (the server handles it completely); no faults of the network in the same execution; two refuted theorems.",
 "C101": "the other processes make no step between force_stop() and the return of wait() (C110 is without this limit); the main process is not killed (DESIGN.md section 4); one refuted theorem.",
 "C102": "what urllib3 adds to the headers is not modelled; two refuted theorems.",
 "C103": "the simplifications of C88 apply; three refuted theorems.",
 "C104": "find_spec, the look at rel_dependencies and _LazyLoader.exec_module are single steps; three refuted theorems for two threads.",
 "C105": "The code of modules imports nothing itself and may raise; rel_dependencies are in Lazy.v (C72); four refuted theorems.",
 "C106": "the simplifications of C88 apply; the receiving theorems are for an open buffer; three refuted theorems.",
 "C107": "Timeout.v has the two attributes of a mirror only (Proc.v has one); float() of the argument succeeded; three refuted theorems.",
 "C108": "the simplifications of C88 apply; a request is one command and is handled completely; one call at a time; two refuted theorems.",
 "C109": "the simplifications of C40 and C88 apply; clear() for names without glob characters (as in C42); one call at a time; one refuted theorem.",
 "C110": "no other thread reads from the main buffer or receives meanwhile (the refuted theorem shows why a second receiver is excluded).",
 "C111": "the simplifications of C61 apply; the text of spec.origin is a parameter; the texts of ordinary modules, and of modules whose __name__ was set by a program, are not modelled; one refuted theorem.",
 "C112": "the simplifications of C61 apply; from-imports as in CPython 3.11; an __all__ set by the code of a module, and loaded modules that are packages, are not modelled; two refuted theorems."
}