#!/usr/bin/env python3
"""Regenerates /verif/properties.jsonl (source of truth for the property list)."""
import json, os
P = []
def p(id, title, statement, quantifier, why, anchors):
    P.append(dict(id=id, title=title, statement=statement, quantifier=quantifier,
                  why_tests_cant=why, anchors=anchors))
MP = "syncstream/mproc.py:"; FI = "syncstream/file.py:"; HO = "syncstream/host.py:"
BA = "syncstream/base.py:"; UT = "syncstream/utils.py:"

# ---------------------------------------------------------------- text core
p("C01", "read() shows the last maxlen lines of the written text",
  "After any sequence of write(), new_line() and clear() calls on a fresh LineBuffer(maxlen), read() returns the last maxlen items of: the lines completed since the last clear, oldest first, followed by the unfinished line when it is not empty. Lines are cut at exactly the line boundaries of Python text (LF, VT, FF, CR, CRLF, FS, GS, RS, NEL, LS, PS).",
  "every maxlen >= 1, every finite sequence of operations, every text (all code points)",
  "the space of texts, chunkings and histories is infinite; the tests use a few ASCII/Chinese samples with LF only",
  [MP+"_LineBuffer.write", MP+"_LineBuffer.read", MP+"_LineBuffer.new_line", MP+"_LineBuffer.clear"])
p("C02", "no character is lost, duplicated or reordered",
  "For any sequence of writes, the concatenation of the lines completed by those writes and the unfinished line equals the concatenation of the written texts with the line-break characters deleted; as long as no more than maxlen lines were completed, read() shows all of them.",
  "every finite sequence of written texts", "a conservation law over all texts cannot be enumerated",
  [MP+"_LineBuffer.write", MP+"_LineBuffer.read"])
p("C03", "chunking does not matter, except inside CRLF",
  "write(a); write(b) leaves the buffer in the same observable state as write(a + b) whenever it is not the case that a ends with CR and b starts with LF. When a CRLF is cut between two writes an additional empty record appears (the exact exception).",
  "every buffer state, every pair of texts a, b", "chunk boundaries of a stream are decided by the OS/print(); tests fix one chunking",
  [MP+"_LineBuffer.write", BA+"is_end_line_break"])
p("C04", "the buffer is bounded",
  "In every reachable state of a LineBuffer(maxlen) no more than maxlen finished records are held, and read(), read(n) and len() never exceed maxlen (read(n) also never exceeds n).",
  "every maxlen >= 1, every history of operations (including failing ones), every n",
  "boundedness must hold after arbitrarily long histories",
  [MP+"_LineBuffer.read", MP+"_LineBuffer.parse_lines", MP+"_LineBuffer.__len__"])
p("C05", "read(n) is the last n items of read()",
  "read(n) returns exactly the last n items of what read() returns (all of them when n is larger), and the empty tuple when n <= 0.",
  "every reachable buffer state and every integer n", "the implementation pops, rotates and re-appends the live deque; every combination of fill level, unfinished line and n has its own path",
  [MP+"_LineBuffer.read"])
p("C06", "read() does not disturb the buffer",
  "read() and read(n), although implemented by popping and rotating the live storage, leave the buffer exactly as it was: a later sequence of operations gives the same results with or without the reads.",
  "every reachable state, every n, every later history", "needs a whole-state comparison over all states",
  [MP+"_LineBuffer.read"])
p("C07", "a text record never contains a line break",
  "No text record returned by read() contains any line-break character, whatever was written.",
  "every history of writes and every read", "for all texts",
  [MP+"_LineBuffer.write", MP+"_LineBuffer.read"])
p("C08", "new_line() finishes the current line and is idempotent",
  "new_line() does nothing when the current line is empty; otherwise it is equivalent to write('\\n'). Calling it twice equals calling it once.",
  "every reachable state of an open buffer", "all states",
  [MP+"_LineBuffer.new_line"])
p("C09", "len() of the in-memory buffers",
  "For LineBuffer, LineProcBuffer and LineHostBuffer, len(buf) equals len(buf.read()) exactly when an unfinished line is present or the storage is full; otherwise len(buf) is one too large (in particular an empty buffer reports 1). The docstring claim 'number of lines/items in the buffer' is refuted.",
  "every reachable state of an open buffer", "the unit test only checks a state where the two agree",
  [MP+"_LineBuffer.__len__", HO+"LineHostBuffer.serve"])
p("C10", "what write() returns",
  "LineBuffer.write(data) returns 0 for the empty text, 1 when data is a single line break, the length of data when it has no line break, and otherwise the length of the text after the last line break. The docstring claim (number of written lines) is refuted. A write() of a LineBuffer or LineFileBuffer that returns returns this number in every execution: any threads and calls, any interleaving, any exceptions from outside in other calls.",
  "every state and every text, every execution", "for all texts and schedules",
  [MP+"_LineBuffer.write", FI+"LineFileBuffer.write"])
p("C11", "life cycle: nothing is readable or writable after close()",
  "After close() of a LineBuffer: closed is True, readable() and writable() are False, read and write raise OSError, every operation leaves the buffer unchanged, a second close() does nothing, and no later operation re-opens it. clear() and new_line() raise ValueError then, which refutes 'clear() should always success'.",
  "every history before and after close()", "quantifies over all continuations",
  [MP+"_LineBuffer.close", MP+"_LineBuffer.clear", MP+"_LineBuffer.closed", MP+"_LineBuffer.readable", MP+"_LineBuffer.writable"])
p("C12", "clear() forgets everything",
  "After clear() on an open buffer, read() is empty and every later history behaves exactly like on a fresh buffer of the same maxlen.",
  "every reachable open state, every later history", "all continuations",
  [MP+"_LineBuffer.clear"])
p("C13", "line-break test",
  "is_end_line_break(s) is True exactly when s is non-empty and its last character is one of the ten line-break characters of Python text.",
  "every text", "all strings", [BA+"is_end_line_break"])
p("C14", "maxlen validation",
  "LineBuffer(maxlen) and LineFileBuffer(path, maxlen) raise TypeError unless maxlen is an int >= 1; when construction succeeds, .maxlen stays equal to that int for the whole life of the buffer.",
  "every argument value, every later history", "all arguments and histories",
  [MP+"_LineBuffer.__init__", MP+"_LineBuffer.maxlen", FI+"LineFileBuffer.__init__"])
p("C15", "parse_lines override sees exactly the completed lines",
  "If a subclass overrides parse_lines, the successive calls receive exactly the completed lines in order, whatever the override does with them (as long as it does not touch the current line itself); an override that calls a locking method of the same buffer such as read() or write() blocks forever (deadlock).",
  "every override, every sequence of writes", "quantifies over user code",
  [MP+"_LineBuffer.parse_lines", MP+"_LineBuffer.write"])

# ---------------------------------------------------------------- threads
p("C16", "concurrent write/read/new_line are linearizable",
  "Any number of threads may call write(), read(), read(n), new_line(), flush(), readable(), writable(), closed on one open LineBuffer: every complete interleaved execution gives each call the result, and the buffer the final content, of some sequential order of the same calls that respects each thread's program order.",
  "every number of threads, every program of calls, every interleaving at the granularity of single container/lock operations",
  "schedules cannot be enumerated by tests",
  [MP+"_LineBuffer.write", MP+"_LineBuffer.read", MP+"_LineBuffer.new_line"])
p("C17", "locks are always released and cannot deadlock",
  "Every public method of LineBuffer releases the lock on every normal and exceptional exit, and in every reachable configuration of any number of threads calling public methods (including clear and close) either all threads are finished or some thread can take a step.",
  "every number of threads, every program of calls, every interleaving", "schedules",
  [MP+"_LineBuffer"])
p("C18", "clear() is not atomic",
  "clear() concurrent with write() can leave a state no sequential order of the two calls can produce (the new finished lines are lost while the unfinished tail of the same write survives), and clear() concurrent with read() can bring back a cleared record or make read(n) raise IndexError. The docstring claim 'this method is thread-safe' is refuted. The bound maxlen still holds.",
  "existential witnesses (refutations); the bound for every schedule", "race windows",
  [MP+"_LineBuffer.clear", MP+"_LineBuffer.read"])
p("C19", "close() race",
  "Two concurrent close() calls can make one raise ValueError, and a write() concurrent with close() can raise ValueError instead of the documented OSError; the claim 'the second call will do nothing' is refuted under concurrency (it holds sequentially, C11).",
  "existential witnesses", "race windows", [MP+"_LineBuffer.close", MP+"_LineBuffer.write"])
p("C20", "reading while receive() records an error",
  "LineProcBuffer.receive() appends error/warning items without the buffer lock: a concurrent read() can drop that item and a concurrent read(n) can permanently reorder the records; when receive() and read never overlap this cannot happen.",
  "existential witnesses (refutation)", "race windows",
  [MP+"LineProcBuffer.receive", MP+"_LineBuffer.read"])

# ---------------------------------------------------------------- processes
p("C21", "a mirror is transparent",
  "For one LineProcMirror feeding a LineProcBuffer, after any sequence of writes and after all queued messages were received, the records of the main buffer are exactly those of a LineBuffer written directly, and main unfinished line + text held in the mirror = the unfinished line of the direct buffer. In aggressive mode the mirror never holds text.",
  "every sequence of written texts, both modes, every maxlen", "all texts and chunkings",
  [MP+"LineProcMirror.write", MP+"LineProcBuffer.receive"])
p("C22", "a mirror's write() returns the number of characters",
  "LineProcMirror.write(data) and LineHostMirror.write(data), when they return, return len(data) for every data in both modes (not the number of lines as documented), in every execution: any threads and calls, any interleaving, any faults of requests, any exceptions from outside in other calls.",
  "every mirror state, every text, every execution", "for all texts and schedules", [MP+"LineProcMirror.write", HO+"LineHostMirror.write"])
p("C23", "messages of several mirrors are interleaved, never reordered per mirror",
  "For any number of mirrors and any schedule of their queue operations, the sequence received by the main buffer is an interleaving of the per-mirror message sequences: nothing is lost, duplicated or reordered within one mirror.",
  "every number of mirrors, every program, every schedule", "schedules",
  [MP+"LineProcMirror.send_data", MP+"LineProcBuffer.receive"])
p("C24", "line integrity across mirrors",
  "If every text written to the (non-aggressive) mirrors contains line breaks at most at its end, then the records of the main buffer are an interleaving of the lines of the individual mirrors (no record mixes text of two mirrors). Without that condition a record can mix text of two mirrors (refuted: mirror A writes 'a\\nb', mirror B writes 'c\\n', giving record 'bc').",
  "every number of mirrors, every program meeting the condition, every schedule", "schedules",
  [MP+"LineProcMirror.write", MP+"LineProcBuffer.receive"])
p("C25", "wait() returns exactly when every mirror has finished",
  "If n mirrors were handed out and each sends exactly one end signal (close or error) after its data, then wait() returns, it returns False only at the last end signal, all data of all mirrors was received by then, the queue is empty and n_mirrors is 0.",
  "every n >= 1, every message contents, every interleaving", "schedules",
  [MP+"LineProcBuffer.wait", MP+"LineProcBuffer.receive", MP+"LineProcBuffer.mirror"])
p("C26", "more than one end signal per mirror breaks wait()",
  "If a mirror sends two end signals (send_eof() inside its own context) wait() can return while data of another mirror is still unreceived; n_mirrors can become negative, stays negative through reset_states(), and makes a later wait() return early.",
  "existential witnesses (refutation of 'wait until the close signal is received' for all mirrors)", "schedules",
  [MP+"LineProcBuffer.receive", MP+"LineProcBuffer.reset_states", MP+"LineProcMirror.send_eof"])
p("C27", "stop_all_mirrors() stops every later write",
  "After stop_all_mirrors(), every write() on every mirror raises StopIteration, puts nothing in the queue and leaves the text held by the mirror unchanged, until reset_states() is called.",
  "every mirror state, every text, every later history without reset", "all continuations",
  [MP+"LineProcBuffer.stop_all_mirrors", MP+"LineProcMirror.write"])
p("C28", "a stopped mirror holding a partial line cannot send its end signal",
  "After stop_all_mirrors(), close()/close(exc)/send_eof()/send_error()/send_warning()/context exit of a LineProcMirror that holds a non-empty partial line raise StopIteration without sending anything, so wait() never returns (it blocks); if the mirror holds no partial line, the end signal is sent.",
  "every stopped mirror state, every exception value", "depends on where the stop signal lands between two writes of one print()",
  [MP+"LineProcMirror.close", MP+"LineProcMirror.send_error", MP+"LineProcMirror.new_line"])
p("C29", "closing a mirror flushes and signals once",
  "close(exc) of an open, not stopped LineProcMirror that is not aggressive or holds no text (C66 has the other case), with room in the queue, sends the held partial line (with a line break) first, then exactly one end signal (close, or error carrying the exception), and leaves the mirror closed and empty; later close(), send_*() send nothing and write() raises OSError.",
  "every mirror state, every exception, every later history", "all states and continuations",
  [MP+"LineProcMirror.close", MP+"LineProcMirror.send_eof", MP+"LineProcMirror.send_error"])
p("C30", "force_stop() ends wait()",
  "After force_stop(), wait() returns after handling the messages queued before the stop (or earlier if the mirrors finish first); when it returns at the stop signal n_mirrors is 0 and everything queued before the stop has been recorded.",
  "every queue content, every n_mirrors", "all queue contents",
  [MP+"LineProcBuffer.force_stop", MP+"LineProcBuffer.receive"])
p("C31", "reset_states() guards and resets",
  "reset_states() raises TypeError and changes nothing when n_mirrors > 0; otherwise the stop flag is False, the new mirror is open and empty with an empty queue, records are kept, and messages sent by old mirrors are never received.",
  "every state", "all states", [MP+"LineProcBuffer.reset_states"])
p("C32", "LineProcMirror.read(size)",
  "mirror.read() returns exactly the text held; mirror.read(size) returns the empty text for every size, in every reachable state; the docstring claim (last size items) is refuted.",
  "every reachable mirror state, every size", "all states", [MP+"LineProcMirror.read"])
p("C33", "the timeout of a mirror is not a timeout",
  "With timeout set, sending to a full queue fails immediately with queue.Full even if a slot becomes free before the timeout expires; with timeout None it waits. The documented meaning of timeout is refuted.",
  "every timeout value, every time at which a slot becomes free", "timing",
  [MP+"LineProcMirror.__init__", MP+"LineProcMirror.timeout", MP+"LineProcMirror.send_data"])
p("C34", "LineProcBuffer.write()/LineHostBuffer.write() never write",
  "Calling write() directly on a LineProcBuffer or a LineHostBuffer always raises NotImplementedError and changes nothing; fileno() and seek() of all classes always raise OSError.",
  "every state, every text", "all states", [MP+"LineProcBuffer.write", HO+"LineHostBuffer.write"])
p("C35", "order of error records against unfinished text (process mode)",
  "In process mode an error item is recorded before the unfinished text its mirror already sent (write('a\\nb'); send_error(e) is read as a, e, b); when all text sent by the mirrors is line-terminated, items are recorded in sending order. ",
  "every sequence meeting the condition; witness for the violation", "all histories",
  [MP+"LineProcBuffer.receive", MP+"LineProcMirror.send_error"])
p("C36", "first use of a mirror by two threads",
  "The internal lock of a LineProcMirror/LineHostMirror is created lazily: two threads using a fresh mirror at the same time can both be inside the critical section and lose text (refutes 'the method is thread-safe'). If the lock already exists, concurrent writes of several threads are equivalent to some sequential order.",
  "existential witness; every schedule for the positive part", "race windows",
  [MP+"LineProcMirror.__buffer_lock", MP+"LineProcMirror.write", HO+"LineHostMirror.__buffer_lock"])

# ---------------------------------------------------------------- files
p("C37", "LineFileBuffer is observationally a LineBuffer",
  "For one process, any sequence of write/new_line/read/read(n)/clear on LineFileBuffer(path, maxlen) over an empty directory gives the same write results and the same read results as the same calls on LineBuffer(maxlen); on disk there are exactly min(number of completed lines, maxlen) record files, the newest having number 0.",
  "every maxlen >= 1, every history", "all histories",
  [FI+"LineFileBuffer.write", FI+"LineFileBuffer.read", FI+"LineFileBuffer.clear"])
p("C38", "LineFileBuffer.read(n) and len()",
  "read(n) is the last n items of read() (empty when n <= 0), reading changes no file, and len(buf) equals len(buf.read()).",
  "every directory content, every n", "all directory contents including gaps and foreign files",
  [FI+"LineFileBuffer.read", FI+"LineFileBuffer.__len__"])
p("C39", "several processes share one log without mixing lines",
  "For any number of processes with distinct tmp_id sharing one path and maxlen, any interleaving at the granularity of single file-system operations gives a log which is the last maxlen records of an interleaving of the batches of complete lines of the individual processes: no line mixes text of two processes, per-process order is kept, nothing is lost except by rotation. With clear() and close() among the calls the log is what the additions and removals of the individual calls make of it in some order that keeps the order of each process, and clear() of one process leaves the unfinished lines of the others alone. The results of all calls and the final directory are those of some sequential order of the calls, and no deadlock is possible.",
  "every number of processes, every program of calls, every interleaving", "schedules",
  [FI+"LineFileBuffer.write", FI+"LineFileBuffer.__update_records", FI+"LineFileBuffer.clear", FI+"LineFileBuffer.close"])
p("C40", "crash during a write of LineFileBuffer",
  "If the process dies at any point inside write() (or send_exc()), starting from a log without gaps: every record file on disk is an old record or a new line, unaltered, except at most one that holds a prefix of the new line being written; no record is on disk twice; every old record that the completed write would have kept still exists under some number below maxlen; with at most one completed line, or when nothing is rotated out, records keep their order by file number; no file other than the records and the buffer's temporary file changes; and the temporary file is only changed by appending a prefix of the text (no line completed) or after all lines have been recorded.",
  "every log state, every text, every crash point (single characters)", "crash points",
  [FI+"LineFileBuffer.__update_records", FI+"LineFileBuffer.__write", FI+"LineFileBuffer.send_exc"])
p("C41", "crash windows that users can observe",
  "A crash between renaming and writing makes all records invisible to read() although they are still on disk (until further lines are written); a crash between recording a line and emptying the temporary file makes the line appear twice after restart and glues it to the next line; a crash while writing leaves a truncated record; one crash while two lines are written to a full log, followed by a normal write, makes read() return records out of order. (refutations of durability, exactly-once, atomicity and order under crashes)",
  "existential witnesses", "crash points",
  [FI+"LineFileBuffer.__update_records", FI+"LineFileBuffer.__write", FI+"LineFileBuffer.__clean_last_line"])
p("C42", "clear() of LineFileBuffer",
  "For a path without glob characters, clear() removes exactly the files named <path>-<anything>.log and this buffer's temporary file: afterwards read() is empty. Therefore it also removes the records of a different buffer whose path is <path>-<something> (isolation refuted), and for a path containing glob characters such as '[' it may remove nothing (refuted).",
  "every directory content, every path", "all names",
  [FI+"LineFileBuffer.clear"])
p("C43", "file names do not collide",
  "Record files are named by the path and the decimal number (no leading zeros); two have the same name only if both path and number agree. Temporary names do collide: path 'a-b' with tmp_id 'c' and path 'a' with tmp_id 'b-c' use the same temporary file and lock (refuted).",
  "all paths, tmp_ids and numbers", "all names",
  [FI+"LineFileBuffer.__init__", FI+"LineFileBuffer.__tmp_file_path", FI+"LineFileBuffer.__update_records"])
p("C44", "exceptions in LineFileBuffer are one record",
  "send_exc(e) records the formatted traceback as exactly one record that read() returns as one string (lines joined by LF), whatever line breaks it contains. It does not flush the current line: the record precedes text written earlier (order refuted), and close(exc)/context exit with an exception leave that text in the temporary file.",
  "every exception text, every state", "all texts",
  [FI+"LineFileBuffer.send_exc", FI+"LineFileBuffer.close", FI+"LineFileBuffer.__exit__"])
p("C45", "life cycle of LineFileBuffer",
  "After close(): closed is True forever, read/write raise OSError, new_line/send_exc/close do nothing; the only method that still changes files is clear(). close() flushes the unfinished line into a record.",
  "every history before and after", "all continuations",
  [FI+"LineFileBuffer.close", FI+"LineFileBuffer.readable", FI+"LineFileBuffer.writable"])
p("C46", "sharing a log with different maxlen",
  "A buffer with a smaller maxlen on the same path shows the newest records; writing through it may drop records from the middle of the sequence seen by a buffer with a larger maxlen, but never reorders what remains.",
  "every pair of maxlen, every log content, every written batch", "all contents",
  [FI+"LineFileBuffer.__update_records", FI+"LineFileBuffer.read"])

# ---------------------------------------------------------------- host
p("C47", "messages survive serialization",
  "GroupedMessage.deserialize(m.serialize()) has the type and data of m, also after a trip through JSON; plain text records are passed through unchanged; deserialize of anything that is not an object with a true '/is_syncsdata' and '/type' equal to 'GroupedMessage' returns it unchanged; an object so marked becomes the message of its 'type' and the items of its 'data' (KeyError if one is missing, TypeError if 'data' has no items).",
  "every message, every JSON value", "all values",
  [BA+"GroupedMessage.serialize", BA+"GroupedMessage.deserialize", BA+"is_serialized_grouped_message"])
p("C48", "LineHostReader reads what the host buffer holds",
  "In every state reachable by well-formed requests, LineHostReader.read(size) returns the same items as LineHostBuffer.read(max(0,size)) on the server (read() for size None), and reading changes nothing on the server.",
  "every server history of well-formed requests, every size", "all histories",
  [HO+"LineHostReader.read", HO+"LineHostBuffer.read_serialized", HO+"LineHostBuffer.serve"])
p("C49", "effect of each POST message on the host buffer",
  "A 'str' message acts like write(value) on the buffer; 'error'/'warning' finish the current line and then append exactly one message item; 'close' finishes the current line; an unknown type is rejected with an error and changes nothing; GET changes nothing, and is rejected if its argument n is not a number (decimal digits, single underscores between digits, sign, blanks around it); DELETE empties the buffer.",
  "every server state, every request", "all requests and states",
  [HO+"LineHostBuffer.serve"])
p("C50", "a malformed error message poisons the host buffer",
  "POST {'type':'error','data':{}} is answered 'success' but afterwards every GET whose range covers that item fails, until it is rotated out or DELETE is called; such a request that is marked as serialized but has no 'type' or 'data' key (KeyError), or whose data cannot be made a tuple (TypeError), fails after having already finished the current line; every other marked one is stored. (robustness refuted)",
  "every server state before, every later GET", "all states",
  [HO+"LineHostBuffer.serve", HO+"LineHostBuffer.read_serialized", BA+"GroupedMessage.deserialize"])
p("C51", "reset_states() of the host loses maxlen",
  "LineHostReader.maxlen returns the configured maxlen until reset_states() is called (locally or by DELETE on the state service); afterwards it returns None forever, although the buffer bound itself is unchanged.",
  "every history", "all histories", [HO+"LineHostBuffer.reset_states", HO+"LineHostReader.maxlen"])
p("C52", "stop signal over HTTP",
  "After stop_all_mirrors() (local or through LineHostReader) every later LineHostMirror.write() raises StopIteration and sends nothing until the state is reset; only the value 'true' (any case, surrounding blanks ignored) sets the flag; reader.closed reports exactly this flag and not whether the server's buffer was closed.",
  "every mirror state, text and history", "all continuations",
  [HO+"LineHostMirror.check_states", HO+"LineHostBuffer.stop_all_mirrors", HO+"LineHostReader.stop_all_mirrors", HO+"LineHostReader.closed"])
p("C53", "closing a stopped host mirror",
  "After a stop, close(StopIteration) of a LineHostMirror still delivers the held partial line and then the error item; close() or close(other exception) of a stopped mirror that holds a partial line raises StopIteration and delivers nothing.",
  "every stopped mirror state, every exception", "depends on stop timing",
  [HO+"LineHostMirror.send_error", HO+"LineHostMirror.send_eof", HO+"LineHostMirror.new_line"])
p("C54", "host mirror is transparent",
  "For any number of LineHostMirrors posting to one server in any order, each message is applied atomically; for a single mirror the server's buffer holds what a LineBuffer written directly would hold, up to the partial line held by the mirror, provided that the texts contain no surrogate pair written as two characters (refuted otherwise).",
  "every sequence of texts, both modes, every interleaving of requests", "all texts and schedules",
  [HO+"LineHostMirror.write", HO+"LineHostBuffer.serve"])
p("C55", "failed delivery keeps the text",
  "If the request that delivers the text fails (no connection, or an error status), a non-aggressive LineHostMirror keeps all undelivered text including the text of the failing write, and the next successful delivery sends it exactly once, in order; an aggressive mirror drops the text of the failing write, and so do both if already the question for the stop signal fails. A caller that repeats the failed write therefore duplicates it (non-aggressive). If only the answer gets lost, the text is delivered twice (refutes exactly once).",
  "every failure pattern, every sequence of texts", "fault schedules",
  [HO+"LineHostMirror.write", HO+"LineHostMirror.send_data"])
p("C56", "concurrent requests on the host are serialized",
  "Any number of concurrent POST/GET/DELETE requests handled by different server threads are equivalent to some sequential order; every request is answered (no deadlock between the locks used by the handlers).",
  "every number of handler threads, every interleaving", "schedules",
  [HO+"LineHostBuffer.serve"])
p("C57", "reader connection life cycle",
  "Before LineHostReader is entered for the first time, every request has a pool of its own that is cleared afterwards. The first enter creates the pool that all later requests use, also after the context was left (refutes the temporary pools of the docstring); entering again creates nothing, but every exit clears the pool, also the exit of an inner context (refutes that re-entering has no effect).",
  "every sequence of enter/exit/read", "all histories",
  [HO+"LineHostReader.__enter__", HO+"LineHostReader.__exit__"])
p("C58", "endpoint and route inference",
  "The endpoint inferred from an api_route is the route without leading slashes with '/' replaced by '.'; distinct routes can infer the same endpoint (e.g. '/a/b' and '/a.b'), and the state route of one buffer can equal the main route of another ('/x' and '/x-state').",
  "every route", "all strings", [HO+"LineHostBuffer.__init__", HO+"LineHostBuffer.serve"])

# ---------------------------------------------------------------- base / context
p("C59", "text form of a GroupedMessage",
  "str(GroupedMessage(data)) is the data lines joined by LF; for an exception the lines are those of the formatted traceback, contain no line break, and splitting the text again gives the same lines exactly when the last line is not empty.",
  "every data value, every traceback text", "all texts", [BA+"GroupedMessage.__init__", BA+"GroupedMessage.__str__"])
p("C60", "redirection is undone",
  "Properly nested use of any number of distinct buffers/mirrors as contexts restores sys.stdout and sys.stderr exactly, whether or not the body raises; while inside, both point to the innermost buffer. Re-entering the same buffer leaves sys.stdout = None after the outer exit, and overlapping (non-nested) contexts of two threads leave stdout redirected (refutations). redirect_stdout/redirect_stderr of the package are re-entrant: any properly nested use, also of the same object, restores the stream.",
  "every nesting structure", "all nestings and interleavings",
  [MP+"LineBuffer.__enter__", MP+"LineBuffer.__exit__", BA+"redirect_stdout", BA+"redirect_stderr"])

# ---------------------------------------------------------------- lazy import
p("C61", "lazy_import is idempotent",
  "Once lazy_import(name) returned a module, every later call for the same full name returns the same object and changes nothing, whatever the other arguments.",
  "every module table, every argument", "all histories", [UT+"lazy_import"])
p("C62", "missing optional dependencies",
  "For a name not yet in the module table (without packages, or in packages that are loaded; C105 has the others): if a dependency is missing or the module does not exist, required=True raises ModuleNotFoundError and changes nothing, required=False yields a placeholder, and get_lazy_attribute on the placeholder yields None; otherwise a lazy module is returned. A later required=True call for a name that already has a placeholder returns the placeholder instead of raising (refuted: 'required').",
  "every environment, every argument", "all environments",
  [UT+"lazy_import", UT+"get_lazy_attribute", UT+"is_module_invalid"])
p("C63", "lazy attributes load once",
  "The code of a lazily imported module is run at most once in every history; a lazy attribute yields the attribute of its module and, once it has yielded an object other than None, the same object at every later time; after the first use the parent package exposes this object. An attribute whose value is None is looked up at every use (refuted for None).",
  "every sequence of accesses", "all histories", [UT+"_LazyAttribute"])
p("C64", "JSON text round trip of host messages",
  "Every message body built by LineHostMirror/LineHostReader or by the server, once encoded as JSON text (ASCII escapes) and decoded again, is the same value, for all texts without adjacent lone surrogates; adjacent lone surrogates are merged (refuted for those). All answers of the server are such values if all requests are, whatever the interleaving of its threads; but two texts without adjacent lone surrogates may be joined by the server into one with a pair.",
  "every message and text", "all texts", [HO+"LineHostMirror.send_data", HO+"LineHostMirror.send_error", HO+"LineHostReader.read"])

# ---------------------------------------------------------------- found while modelling
p("C65", "len() is not atomic",
  "len(buf) reads the storage outside the lock: concurrent with read(n) it can report a number that is correct neither before nor after the read (refutation of thread-safety of len); in every execution it lies between 1 and maxlen.",
  "existential witness; the range for every number of threads, every program, every schedule", "needs one particular interleaving",
  [MP+"_LineBuffer.__len__", MP+"_LineBuffer.read"])

p("C66", "switching a mirror to aggressive mode while it holds text",
  "If aggressive is switched on while a LineProcMirror holds text, write(data) sends exactly data and new_line() sends only a line break; the held text stays where it is, and close() sends only a line break and the end signal and discards the held text.",
  "every reachable open, not stopped mirror with room in its queue", "all reachable states and texts",
  [MP+"LineProcMirror.__write", MP+"LineProcMirror.close", MP+"LineProcMirror.new_line"])
p("C67", "a used mirror cannot be pickled",
  "Once any method that uses the internal lock was called on a LineProcMirror, pickling it (sending it to a process) fails for ever with TypeError (ValueError once it is closed); a mirror that can still be pickled holds no text and is open, and the copy is a new mirror with the same settings and the same queue.",
  "every reachable mirror, every later history", "all histories",
  [MP+"LineProcMirror.__init__", MP+"LineProcMirror.__buffer_lock"])
p("C68", "receiving into a closed main buffer",
  "receive() on a closed LineProcBuffer raises OSError for a text message, which is lost: it is removed from the queue and recorded nowhere.",
  "every reachable system", "all reachable states", [MP+"LineProcBuffer.receive", MP+"_LineBuffer.write"])

p("C69", "the suffix of file_path is ignored",
  "LineFileBuffer drops the part of the file name after its last dot: paths that differ only in that part (run-2024.01.30 and run-2024.01.31) share records, temporary file and locks (refutes that distinct paths give distinct logs).",
  "all directories, base names and suffixes", "all paths", [FI+"LineFileBuffer.__init__"])
p("C70", "text that UTF-8 cannot encode",
  "write() of an unfinished line containing a lone surrogate raises UnicodeEncodeError and changes neither records nor unfinished line; but when the write completes several lines, the failure comes after the old records were renumbered, and they all become invisible to read() (refutes that a failed write has no effect).",
  "every state and text; existential witness for the second part", "all states",
  [FI+"LineFileBuffer.__write_last_line", FI+"LineFileBuffer.__update_records", FI+"LineFileBuffer.__write"])

p("C71", "error pages of the host and the exceptions of the clients",
  "A request that the server rejects makes the client raise ConnectionError only if the error page of the application is a JSON object (AttributeError for any other JSON value); with the HTML pages that Flask sends by default the client raises ValueError (a JSON decode error) instead of the documented ConnectionError.",
  "every application, every rejected reading request", "depends on the application's error handler", [HO+"LineHostReader.read", HO+"LineHostMirror.send_data"])

p("C72", "a dependency that is itself a placeholder",
  "lazy_import(..., dependencies=[... d ...]) raises ValueError, also with required=False, if the module d was replaced by a placeholder before (instead of making another placeholder).",
  "every environment, every later history, every list of dependencies whose members before d are found", "all histories", [UT+"_LazyImporter.check_is_dep_missing", UT+"_ModulePlaceholder"])
p("C73", "a lazy module is loaded by one access only",
  "After the first access to an unprotected attribute of a lazy module, whether its code raised or not, every later access is a plain lookup of what the code had defined; a module whose code raised once is never run again, even if it would succeed now (refuted: retry as for an ordinary import).",
  "every environment, every later history, every attribute", "all histories", [UT+"_LazyModule.__getattribute__"])
p("C74", "rel_dependencies are not loaded",
  "With importlib of CPython 3.11.9 and later, the first access of a lazy module runs only its own code: the modules given as rel_dependencies are not loaded, contrary to the docstrings of force_load() and gather_relative_module_dependencies().",
  "every world, every module whose code only defines attributes", "depends on the version of importlib", [UT+"_LazyModule.force_load", UT+"_LazyModule.load_deps", UT+"_LazyImporter.gather_relative_module_dependencies"])

p("C75", "print() reaches the innermost context",
  "In any properly nested code with print() calls, exceptions and try/except, each printed text is written to the innermost active target of its stream (print to sys.stderr = None goes to sys.stdout, both None: nowhere), one print() call whose writes succeed gives its target the arguments with the separator between them and the end text, each context is left exactly once with the exception that passes, and the streams are restored; LineBuffers and consoles hold exactly the texts printed while they were the innermost target, in order, and no print() fails.",
  "every nested program, every behaviour of the objects, every initial content", "all programs", [MP+"LineBuffer.__enter__", MP+"LineBuffer.__exit__", MP+"_LineBuffer.write", BA+"redirect_stdout", BA+"redirect_stderr"])
p("C76", "with LineProcMirror around printing code",
  "with mirror: (open, line-collecting, queue with room, not stopped) sends everything printed inside, nothing lost, doubled or reordered, every message with a line break in it, and then exactly one end signal: the exception that left the block, else close. If the stop signal arrives inside, every later print() raises StopIteration; if an unfinished line is held then, leaving the block raises StopIteration and sends no end signal, also when the error was caught inside the block (refutes the advice of stop_all_mirrors()); if nothing is held the end signal is sent, also when the error was not caught (refutes the warning there).",
  "every nested program, every reachable mirror, every moment of the stop signal between two calls", "all programs and moments", [MP+"LineProcMirror.__enter__", MP+"LineProcMirror.__exit__", MP+"LineProcMirror.close", MP+"LineProcBuffer.stop_all_mirrors"])
p("C77", "with LineFileBuffer around printing code",
  "with buffer: adds everything printed inside to the log as write() would; a block that ends normally turns the unfinished line into a record; a block that raises adds one record with the exception and leaves the unfinished line unfinished, so that text printed before the exception is read after it (refutation); the buffer stays open and no other file changes.",
  "every nested program with encodable texts, every log without gaps of at most maxlen records", "all programs and logs", [FI+"LineFileBuffer.__enter__", FI+"LineFileBuffer.__exit__", FI+"LineFileBuffer.new_line", FI+"LineFileBuffer.send_exc"])
p("C78", "with LineHostMirror around printing code",
  "with mirror: (server reachable, not stopped) posts what is printed inside and then exactly one end signal (the exception that left the block, else close). If the stop signal arrives inside, every later print() raises StopIteration; if an unfinished line is held then and the block does not end with StopIteration (e.g. it was caught), leaving raises StopIteration and sends nothing; otherwise the held line and the end signal are sent, among them the StopIteration error itself (refutes: the error is not sent back).",
  "every nested program, every server state, every mirror, every moment of the stop signal between two calls", "all programs, states and moments", [HO+"LineHostMirror.__enter__", HO+"LineHostMirror.__exit__", HO+"LineHostMirror.close", HO+"LineHostBuffer.stop_all_mirrors"])

p("C79", "threads that close one LineProcMirror",
  "Whatever the threads call on one mirror and however they are interleaved: once some close() has returned the mirror is closed and stays closed; a mirror that became closed has sent an end signal before; at most one end signal per call of close(), send_eof() and send_error() is sent. Two calls of close() at the same time may both send an end signal, or one of them raises ValueError (refutes: 'only takes effects once. The second call will do nothing'), and wait() then returns before the other mirrors have ended.",
  "every number of threads, every list of calls, every state of the mirror, every schedule", "all schedules", [MP+"LineProcMirror.close", MP+"LineProcMirror.send_eof", MP+"LineProcMirror.clear", MP+"LineProcBuffer.wait"])
p("C80", "an account of threads that share one LineProcMirror",
  "Every finished execution of threads sharing a mirror whose lock exists is a sequence of indivisible parts (closed or not, text held, text written, line ended, text dropped, mirror shut, message sent), each with its effect on queue and held text, such that every call consists of its parts in order and has the result that belongs to them; no execution gets stuck. Consequences that happen: a write() that returned its length can lose its text to a close(), lines can arrive after the end signal, write() can raise ValueError instead of OSError, an aggressive mirror drops text silently (refutes thread safety of write()).",
  "every number of threads, every list of calls except changes of settings, every reachable mirror with lock and unbounded queue, every schedule", "all schedules", [MP+"LineProcMirror.write", MP+"LineProcMirror.close", MP+"LineProcMirror.new_line", MP+"LineProcMirror.send_data", MP+"LineProcMirror.clear"])

p("C81", "the number of mirrors when threads use a LineProcBuffer at the same time",
  "Whatever threads call on the main buffer and on mirrors and however they are interleaved: n_mirrors stays between its start (or zero) minus the messages that may be received and its start (or zero) plus the reads of mirror; while nobody receives it never falls and has risen when all mirrors have been handed out. It may rise by less than the number of reads: two threads reading mirror may count once, and wait() then returns while a handed-out mirror is open; a read of mirror during a receive() may undo a decrement, and wait() then never returns although all mirrors are closed (refutes the expectation that each read of mirror counts once, which the usage example relies on).",
  "every number of threads, every list of calls on the main buffer and any mirrors, every state, every schedule, every moment", "all schedules", [MP+"LineProcBuffer.mirror", MP+"LineProcBuffer.receive", MP+"LineProcBuffer.wait"])
p("C82", "stop_all_mirrors() while threads and processes are working",
  "At the moment the stop flag is set, every thread may be anywhere in its work. From then on, while nobody resets the states or calls send_data(), each of these threads puts at most one more text into the queues, calls that begin later put none, and every write() that begins later on any mirror of the buffer raises. The one text more does occur: it arrives after stop_all_mirrors() has returned.",
  "every number of threads, every list of calls on the main buffer and any mirrors, every state, every schedule before and after the stop", "all schedules", [MP+"LineProcBuffer.stop_all_mirrors", MP+"LineProcMirror.__write", MP+"LineProcMirror.write"])

p("C83", "processes with the same tmp_id on one log",
  "Processes log to one path, each with any tmp_id (the default is the same for all), with any calls in any interleaving. Every finished execution has an account by indivisible steps on the records and on the temporary files, with the results of all calls. The complete lines of each write, exceptions and clear() reach the records in one piece each, in the order of the calls of their process; no execution gets stuck. Only unfinished text depends on the others: what is found in a temporary file consists of whole remainders written under the same tmp_id, perhaps after the text that was there at first; such text may be lost, logged twice, put before another process's line, or new_line() may add an empty line (refutes for conflicting ids what C39 shows for distinct ones).",
  "every number of processes, every assignment of identifiers, every list of calls with encodable texts, every log of at most maxlen records, every schedule", "all schedules", [FI+"LineFileBuffer.__init__", FI+"LineFileBuffer.write", FI+"LineFileBuffer.new_line", FI+"LineFileBuffer.clear", FI+"LineFileBuffer.read"])

p("C84", "exported classes used as classes",
  "The classes of file.py and host.py are exported as lazy attributes. Calls and attributes of an exported name work and are those of the class, at any time. But a class statement with an exported name among its bases either raises or makes an object that is no class: calling it, every attribute of it, isinstance() with it and inheriting from it raise at any later time; and isinstance() with an exported name is never true. (Refutes 'Users could inherit this method and override it' of parse_lines for the exported name.) The class read from the package after loading can be inherited from.",
  "every program of package uses, class statements, calls, attribute accesses and isinstance(), every environment of modules", "all programs", [UT+"_LazyAttribute.__init__", UT+"_LazyAttribute.__call__", UT+"_LazyAttribute.__getattribute__", FI+"LineFileBuffer.parse_lines"])
p("C85", "importing the package with any choice of installed dependencies",
  "Whichever of fasteners, urllib3, packaging, flask can be found, importing the package raises nothing, runs no code of file.py, webtools.py and host.py and changes no other entry of sys.modules; LineFileBuffer is None exactly if fasteners is missing, the three names of host.py are None exactly if one of the other three is missing, and otherwise they are lazy attributes for their names. A dependency that is imported but has no __spec__ makes the import of the whole package fail (refutes that dependencies are optional).",
  "every choice of installed dependencies, every state of sys.modules in which the three modules are not imported", "all environments", [UT+"lazy_import", UT+"get_lazy_attribute", UT+"is_module_invalid"])

p("C86", "an account of threads that share one LineHostMirror",
  "Threads share a mirror whose lock exists, other clients use the service at the same time, and any request may fail, be refused or lose its answer. Every finished execution is a sequence of indivisible parts (mirror shut or not, text held, service asked whether to stop, text written and perhaps sent, line ended, text dropped, mirror shut, request), each with its effect on the held text; the requests among them are served in this order; between the question whether to stop and the write that follows nobody else touches the mirror; every call consists of its parts in order and has the result that belongs to them; no execution gets stuck. Without clear() and close(), the texts taken by the service and the text held are what was written, in this order. What happens besides: a write() that returned its length can lose its text to a close(), lines can be sent after the end signal, write() can raise ValueError instead of OSError, an aggressive mirror drops text silently (refutes thread safety of write()).",
  "every number of threads, every list of calls and requests of others (the attribute aggressive keeps its value), every mirror with lock, every state of the service, every sequence of faults, every schedule", "all schedules and faults", [HO+"LineHostMirror.write", HO+"LineHostMirror.close", HO+"LineHostMirror.new_line", HO+"LineHostMirror.send_data", HO+"LineHostMirror.clear"])

p("C87", "connections of LineHostMirror and LineHostReader: nothing stays open that should not",
  "Pools of connections, responses and finalizers are visible. Whatever threads, mirrors and readers do, in any interleaving and with any faults: every response is, in this order and once each, received, read (unless it answers a message that was taken), released and closed, in the pool that it came from, and when the threads are done this is complete for every response; a pool that is stored in no object serves exactly one request and is then cleared, whatever happened; a stored pool is created once, stored in one object, and used only afterwards, and the pool of a mirror is cleared only when the mirror goes; results, service, mirrors and locks are as if requests were single commands (and conversely). For a mirror used by one thread: no request, no pool; otherwise one pool for all requests, one finalizer, which clears it at the end and not before (close() does not). For a reader: the exact log of any sequence of calls, __enter__ and __exit__. Refuted: a reader after its context uses no temporary pool but the old one, which is not cleared again; re-entering has an effect, since leaving the inner context clears the pool of the outer one; with threads the finalizer of a pool can get lost.",
  "every number of threads, mirrors, readers and calls, every state of the service, every sequence of faults, every schedule", "all schedules and faults; resources are not visible in results", [HO+"LineHostMirror.__http", HO+"LineHostReader.__enter__", HO+"LineHostReader.__exit__", "syncstream/webtools.py:SafePoolManager", "syncstream/webtools.py:clean_http_manager"])

p("C88", "exceptions from outside in the middle of a call",
  "Before any command of any method of LineBuffer, LineFileBuffer, LineProcMirror, LineProcBuffer, LineHostMirror, LineHostReader and LineHostBuffer (with the view functions of its service) an exception of any kind may come (KeyboardInterrupt, MemoryError, full disk, broken connection). The call then raises exactly this exception, releases exactly the locks that it took, and leaves the data as after some number of its commands; every such number can occur, and a call in which none comes is as usual. Threads with such calls on LineBuffer or host objects, threads of the server, and processes with such calls on LineFileBuffer, never get stuck. LineFileBuffer.write leaves on disk what C40 says for a crash. But: wait() interrupted after the last end signal and called again never returns; a line interrupted while it is sent is sent again with the next one or changes it; after an error while records are renamed read() shows none of them until the next line.",
  "every call, every state of data and locks, every sequence of exceptions, every number of threads and processes, every schedule", "exceptions at every point of every call", [MP+"LineBuffer.write", MP+"LineBuffer.read", MP+"LineProcMirror.write", MP+"LineProcBuffer.wait", FI+"LineFileBuffer.write", HO+"LineHostMirror.write"])
p("C89", "what an exception from outside leaves of a LineBuffer",
  "write(): the records are as before or contain all complete lines, and the unfinished text is the old one (with the position at its end or start), removed, or the new one. new_line(): nothing or as write of a line break. read(): the records may be rotated and one may be missing (two if the buffer is full and there is unfinished text). clear() and close(): the text goes before the records, closing comes last. After any calls, any of them left by exceptions, also by several threads: the locks are free, there are at most maxlen records without line breaks, an open buffer can be read, which changes nothing, and clear() makes it as new; a closed one raises OSError. But an interrupted read() can change the order or lose a record, an interrupted write() can show its line twice or mix its text into the next line, and an interrupted close() can leave an empty open buffer.",
  "every reachable buffer, every call, every sequence of exceptions, every list of calls and number of threads, every schedule", "exceptions at every point of every call", [MP+"_LineBuffer.__write", MP+"_LineBuffer.read", MP+"_LineBuffer.__read_n", MP+"_LineBuffer.clear", MP+"_LineBuffer.close", MP+"_LineBuffer.new_line"])

p("C90", "processes that print inside 'with mirror:' while the main process waits",
  "Each of several processes runs any code inside 'with mirror:' (print() to stdout and stderr, nested redirections, try/except, exceptions), the main process is in wait(). In every interleaving: when wait() has returned, everything printed inside the blocks has been received, in order for each process, an unfinished line is ended, then comes the signal for how the block ended (end, or the exception that left it); the queue is empty and no mirror is counted any more. If every text is without line break or ends with one (every print() whose arguments have no line breaks), the records are whole lines of single processes and the exceptions, each process in its order. A process whose block was left has its own streams back, ends as its block did, and its mirror is closed. No execution gets stuck or goes on for ever. Refuted for other texts: one process prints 'a\\nb', another one 'c', and 'bc' becomes one record.",
  "every number of processes, every code, every reachable system with new mirrors, every schedule", "all programs and schedules", [MP+"LineProcMirror.__enter__", MP+"LineProcMirror.__exit__", MP+"LineProcMirror.write", MP+"LineProcMirror.close", MP+"LineProcBuffer.wait", MP+"LineProcBuffer.receive"])

p("C91", "threads of one process that print",
  "sys.stdout and sys.stderr are shared by the threads of a process; every access to an attribute by __enter__, __exit__ and print() and every step of LineBuffer.write() may be separated by steps of other threads. In every interleaving there is one order of everything the threads did that explains all answers and the contents of all streams; no text is lost or torn. If one thread only uses 'with', its texts go where they go when it is alone and both streams are as before in the end; what other threads print meanwhile goes to the old streams or to a target of that thread. Threads without 'with' that print inside one 'with buffer:' put all their texts into the buffer, each thread's in order, and nothing else changes; texts made of complete lines give whole records. No execution gets stuck or goes on for ever. But the line of one print() need not stay whole; threads with a LineBuffer each may write into each other's buffer and leave sys.stdout redirected; threads that use the same LineBuffer in a 'with' each may leave sys.stdout None.",
  "every number of threads, every code, every set of LineBuffers and other streams, every schedule", "all programs and schedules", [MP+"LineBuffer.__enter__", MP+"LineBuffer.__exit__", MP+"LineBuffer.write"])

p("C92", "clients that print inside 'with mirror:', and readers of the service",
  "Each of several threads or processes runs any code inside 'with mirror:' with a LineHostMirror of its own (print() to stdout and stderr, nested redirections, try/except, exceptions); others use LineHostReaders; one server, not stopped. At any moment of any interleaving the server holds the log of the messages that arrived so far, each one completely, in some order, those of each client being the first ones of what it should send. A client whose block was left has sent everything, the end signal or the exception included, has its streams back and a closed mirror, and ended as its block did. Readers see the server at some moments, later and later. No execution gets stuck or goes on for ever. If no mirror is aggressive and every text is without line break or ends with one, the records, at any moment and for every reader, are whole lines of single clients and the exceptions, those of each client in order. Refuted for texts with a line break inside and for aggressive mirrors, whose pieces of lines mix.",
  "every number of clients and readers, every code, every reachable server, every schedule", "all programs and schedules", [HO+"LineHostMirror.__enter__", HO+"LineHostMirror.__exit__", HO+"LineHostMirror.write", HO+"LineHostMirror.close", HO+"LineHostReader.read", HO+"LineHostBuffer.serve"])

p("C93", "what LineHostReader returns while mirrors write",
  "While any number of mirrors write and readers read, without faults, every call of every reader returns what it would return alone on a server that has got the first q messages of one common order, each completely, and q only grows from call to call of a reader: no call sees half of a message. read(size) is then the last records of the log of these messages and its unfinished line, len() their number (or one more as in C09), closed is false; the finished records of a later answer's log are those of the earlier one and new ones after them.",
  "every number of mirrors and readers, every list of their calls (without clear), every reachable server, every schedule", "all schedules", [HO+"LineHostReader.read", HO+"LineHostReader.__len__", HO+"LineHostReader.closed", HO+"LineHostBuffer.serve", HO+"LineHostMirror.write"])

p("C94", "processes that print inside 'with LineFileBuffer:' on one log, and readers",
  "Each of several processes runs any code inside 'with buffer:' with a LineFileBuffer of its own on one common path (print() to stdout and stderr, nested redirections, try/except, exceptions), others only look at the log. If the tmp_ids differ, then at any moment of any interleaving at which no process holds the lock of the records, the record files are the last maxlen of the old records and those that arrived so far; each of these is a whole line, or an exception, of a single process, and those of each process are the first ones of what its code should add. A process whose block was left has added everything, left the unfinished line that it should, has its streams back, and ended as its block did. Readers see the last records of some moments, later and later. With any tmp_ids and any calls next to the printing there is an account by steps as in C83. No execution gets stuck or goes on for ever. Refuted for two processes with the default tmp_id: pieces of their lines mix, or are logged twice.",
  "every number of processes, every code, every directory whose records have no gap, every schedule", "all programs and schedules", [FI+"LineFileBuffer.__enter__", FI+"LineFileBuffer.__exit__", FI+"LineFileBuffer.write", FI+"LineFileBuffer.new_line", FI+"LineFileBuffer.send_exc", FI+"LineFileBuffer.read", BA+"redirect_stdout", BA+"redirect_stderr"])

p("C95", "threads that use lazy modules",
  "Any number of threads access attributes of lazily imported modules, call force_load() and use lazy attributes; every lookup, lock operation and statement of a module's code may be separated by steps of other threads. In every execution the code of each module is started at most once. Whoever gets an (unprotected) attribute, directly or by a lazy attribute, gets it from a module whose code has ended (the whole module, or what was defined before its code raised), never from one that another thread is still loading; all threads get the same object. A thread that once got an attribute of a module gets exactly the right answers from it ever after. Lazy attributes and the names of the parent package that replace them hold the right objects. The only exceptions are AttributeError, ImportError of 'from module import name', and those of the code of modules; for modules that use only earlier ones, 2n+3 nested calls suffice.",
  "every code of modules, dependencies, number of threads, list of accesses, every schedule", "all schedules of threads", [UT+"_LazyModule.__getattribute__", UT+"_LazyModule.load_deps", UT+"_LazyModule.force_load", UT+"_LazyAttribute.load_module"])

p("C96", "threads that load lazy modules never wait for each other for ever",
  "If every module uses only itself and earlier modules, as file, webtools and host of this package do, no execution of any threads gets stuck, none goes on for ever, and in the end all locks are free. Refuted for modules that use each other: two threads that load one each wait for each other for ever, although one thread alone can load both.",
  "every layered set of modules, every number of threads, every schedule", "all schedules of threads", [UT+"_LazyModule.__getattribute__", UT+"_LazyModule.load_deps"])

p("C97", "races between threads that load lazy modules",
  "What a module whose code has ended contains never changes again, and if its class then is importlib's _LazyModule, it stays that. Refuted, each with an execution of two threads on file, webtools and host of this package: an attribute that a module has can be accessed (a thread that comes while another one loads the module gets AttributeError for load_deps, later it gets the attribute); 'once the module is actually loaded, the class of the module will be replaced by the actual module class' (it can stay importlib's lazy class for ever); host can be loaded (while another thread loads webtools, the code of host raises ImportError and is never run again, its names are lost for this process).",
  "every execution for the first part; witnesses for the others", "depends on the schedule of threads", [UT+"_LazyModule.__getattribute__", UT+"_LazyModule.load_deps", UT+"_LazyAttribute.load_module"])

p("C98", "processes that are killed while they share a log",
  "Several processes use LineFileBuffers of their own (different tmp_ids) on one path; any of them may be killed between any two steps (also while it holds a lock, between two os.rename, or in the middle of a text); the operating system then releases its locks. At any time there is one history of records: the old ones, and what the processes wrote, each process a beginning of what its calls write, at most the last record of it incomplete. Every record file is a record of this history, none is there twice. A process that ended was not disturbed: it wrote all of its records, has its own unfinished line, and its calls returned what they should; read() returned records of the history. If no call completes more than one line, the records are in order, and each killed process costs at most one of the last maxlen records. Some living process can always go on, until all have ended and every lock is free. Refuted: read() returns all records that are there (a process killed between os.rename and open hides them); records are in order when a call completes several lines.",
  "every number of processes, every list of calls (without clear and close), every log without gaps, every interleaving and every set and moment of kills", "depends on the step at which a process is killed and on the schedule", [FI+"LineFileBuffer.write", FI+"LineFileBuffer.__update_records", FI+"LineFileBuffer.read", FI+"LineFileBuffer.new_line", FI+"LineFileBuffer.send_exc", FI+"LineFileBuffer.__len__"])

p("C99", "processes that are killed while they use mirrors",
  "Several processes write to mirrors of one LineProcBuffer (one mirror each), the main process is in wait(); any of them may be killed between any two steps, the locks that it had stay acquired. At any time nothing that was sent is lost, doubled or changed: each process sent a beginning of its messages, in order, all of them if it ended; wait(), if it returned, recorded exactly what it took out of the queue. From a killed process nothing more comes; the others are not disturbed: if no process was killed while it held the state lock (three steps of write(), a request for it under way included), every other process can finish its work. If each process ends its stream once: when a process was killed before it had sent everything, wait() never returns; when the killed ones had sent everything, it returns, with no mirror counted and an empty queue. If a process was killed while it held the state lock, no write() of any mirror, no stop_all_mirrors() and no reset_states() ever succeeds again. Refuted: wait() returns after processes were killed; force_stop(), wait(), reset_states() after a kill, as the documentation of force_stop() recommends, makes the buffer usable again (reset_states() may never return).",
  "every number of processes, every list of calls on the mirrors, every reachable system, every interleaving and every set and moment of kills", "depends on the step at which a process is killed and on the schedule", [MP+"LineProcMirror.write", MP+"LineProcMirror.close", MP+"LineProcBuffer.wait", MP+"LineProcBuffer.receive", MP+"LineProcBuffer.reset_states", MP+"LineProcBuffer.stop_all_mirrors", MP+"LineProcBuffer.force_stop"])

p("C100", "clients that are killed while they use the host service",
  "Several clients, each with a LineHostMirror of its own, and readers use one service; any client may be killed between any two steps. At any time the server holds the log of complete messages: those of each client are a beginning of what its calls should send, in order, all of them if it ended. The calls of clients that ended returned what they return without kills; readers saw this log grow. Nobody is ever blocked by a killed client: every client that has not ended can go on at any time, by itself; from a killed client nothing more comes. If clients print whole lines into mirrors that are not aggressive, every record is a whole line of one client, also when clients are killed. Refuted: a record holds text of one client only (an unfinished line of a killed client is continued by the next text of another one); text that write() took arrives (what is no line yet is lost with the client).",
  "every number of clients and readers, every list of calls, every log on the server, every interleaving and every set and moment of kills", "depends on the step at which a client is killed and on the schedule", [HO+"LineHostMirror.write", HO+"LineHostMirror.__write", HO+"LineHostMirror.send_data", HO+"LineHostMirror.close", HO+"LineHostReader.read", HO+"LineHostBuffer.serve"])

p("C101", "force_stop(), wait() and reset_states() after processes were killed",
  "Processes use the mirrors of one LineProcBuffer, the main process is in wait(), and any of the other processes are killed at any steps. Whenever another thread of the main process then calls force_stop(), it returns, and wait() returns without any help of the other processes. It has recorded exactly what was sent up to then, in order (if all the streams had ended before: up to the last end). The count of mirrors is not positive, the locks of the main process are free. If no process was killed inside of the state lock, reset_states() then succeeds: a new queue, a state that is not closed, the records kept; if one was, reset_states() never returns. Refuted: the queue is empty afterwards (force_stop() after the streams ended leaves its marker in the queue).",
  "every number of processes, every list of calls on the mirrors, every reachable system, every interleaving, every set and moment of kills, every moment of force_stop()", "depends on the step at which a process is killed and on the schedule", [MP+"LineProcBuffer.force_stop", MP+"LineProcBuffer.wait", MP+"LineProcBuffer.receive", MP+"LineProcBuffer.reset_states"])

p("C102", "the HTTP headers of the clients",
  "Every request of a LineHostMirror or LineHostReader carries exactly the default headers (Accept and User-Agent; with a body also Content-Type: application/json), whatever a user did before with the mappings that headers, headers_get and headers_post return (setting, deleting, clearing, new_child(), copy(), in any order and number). A mapping shows the defaults until something is done with it, whatever is done with the others; what is set in it is found in it. Refuted: the defaults cannot be changed from outside (maps and parents of a mapping give the stored dicts, and a change of the headers for reading changes those for sending); a default header can be removed from a mapping.",
  "every sequence of operations on every number of mappings and requests", "depends on aliasing after arbitrary sequences of operations; no test looks at the headers", [HO+"LineHostMirror.headers", HO+"LineHostMirror.headers_get", HO+"LineHostReader.headers", HO+"LineHostReader.headers_post", HO+"LineHostMirror.__init__", HO+"LineHostReader.__init__"])

p("C103", "what an exception from outside leaves of a LineHostBuffer",
  "An exception of any kind comes before any command of a view function of the service or of a method of LineHostBuffer. POST of a text leaves what write() of it may leave (C89); POST of an error or warning leaves nothing, the current line ended as by write of a line break, or all; POST of close as new_line(); GET as read(); DELETE as clear(); the states are untouched. GET on the states changes nothing, setting the flag and stop_all_mirrors() happen at once or not at all, and reset_states() (DELETE on the states) leaves the old states, none, or the flag alone. After any requests and calls, any of them left by exceptions, also in several threads: no lock is held, there are at most maxlen records, those that are texts are without line breaks, the flag is a bool if it is there, DELETE makes an open buffer as new, GET answers at most maxlen items and changes nothing, a closed buffer answers OSError, DELETE on the states works. But: a request that failed may have been stored, so that sending it again stores it twice; a message may be lost though the current line was ended; after an interrupted reset_states() GET of 'closed' answers null.",
  "every server state after any requests, every request and call, every sequence of exceptions, every number of threads, every schedule", "exceptions at every point of every request", [HO+"LineHostBuffer.serve", HO+"LineHostBuffer.read_serialized", HO+"LineHostBuffer.stop_all_mirrors", HO+"LineHostBuffer.reset_states"])

p("C104", "threads that call lazy_import",
  "Any number of threads call lazy_import with any arguments; every look at sys.modules and every change of it may be separated by steps of other threads. No code of modules is run, existing modules stay as they are, each new one has the name its thread asked for and was made by a thread that asks for it, and no thread makes two of one name. What a call returns has the right name. When all calls have ended every new module is lazy or a placeholder. A module that was registered before stays registered and all calls for it give it. If one thread only asks for a name, its successful calls all give the module that is registered, whatever the others import. If everything that is asked for can be found, no call fails. One thread alone does what C61 and C62 say. Refuted for two threads: they get the same module (they may get two; using the one that is not registered raises ValueError after the code of the module was run, and it is run again for the other one); required=False never fails for a missing module (ModuleReplaceError or ValueError); a module that lazy_import returned can be used (another thread may not have made it lazy yet: AttributeError).",
  "every finder, arguments, initial sys.modules (whose modules are registered under their names), number of threads and calls, every schedule", "all schedules of threads", [UT+"_LazyImporter.lazy_import", UT+"_LazyImporter.create_module_placeholder", UT+"_LazyLoader.exec_module"])

p("C105", "lazy_import of modules in packages",
  "lazy_import of a name with dots, or with such a dependency, runs the code of packages that contain the module or the dependency and no other code, and replaces nothing that is registered; nothing is run if these packages are registered; if none is, all are run from the outside and the module is not. If the package is loaded, the result is as for names without dots: lazy if found, else a placeholder or ModuleNotFoundError. If the package is itself lazy, a placeholder, no package, or does not exist, ModuleNotFoundError is raised, also with required=False, also if it is the package of a dependency, and an ordinary import fails in the same way; after the first use of the lazy package its modules can be imported lazily. In every sequence of lazy imports, uses and ordinary imports the code of a module that does not raise is run once at most, if no lazy import names a dependency inside the module it imports. Refuted: without this condition (the code is run twice); required=False raises no ModuleNotFoundError; lazy_import runs no code; after a lazy import of a package its modules can be imported in the ordinary way.",
  "every set of packages and modules on disk, every name, dependencies and sys.modules, every sequence of operations", "depends on which packages exist, are registered, lazy or loaded; tests use names without packages", [UT+"_LazyImporter.lazy_import", UT+"_LazyImporter.check_is_dep_missing", UT+"_LazyModule.__getattribute__"])

p("C106", "what an exception from outside leaves of a LineProcMirror and a LineProcBuffer",
  "An exception of any kind comes before any command of a method. In every case no lock is held afterwards. write() of a mirror leaves nothing done; or, aggressive, the text sent; or the text held; or, if it ends a line, the held text sent once, and still held, held with the position at its beginning, or removed. new_line(), send_eof(), send_error(), send_warning() leave this or send their message after the current line; close() closes the mirror only after the end signal is sent; clear() leaves the queue alone. A mirror that has to stop sends and changes nothing if text would be sent. receive() leaves the message in the queue and all as it was, or takes it and does a part of what it means; wait() handles any number of messages completely and then leaves what receive() leaves. mirror, stop_all_mirrors(), reset_states(), force_stop() leave one of the states between their commands (open mirrors: reset_states() changes nothing); read(), clear(), new_line(), close() of the buffer as in C89. After any calls, also in several threads and processes, any of them left by exceptions: at most maxlen records, those that are texts without line breaks, an open buffer can be cleared and read, an open mirror can be cleared, closed ones say so. Refuted: a message is not lost (it may be taken and not recorded); close() may be called again after it was left (two end signals, wait() returns before another mirror is closed); after clear() that was left the next text is sent as it is (it overwrites the beginning of the old one).",
  "every reachable or unreachable system with an open mirror or buffer, every call, every sequence of exceptions, every number of threads and processes, every schedule", "exceptions at every point of every call", [MP+"LineProcMirror.write", MP+"LineProcMirror.new_line", MP+"LineProcMirror.close", MP+"LineProcMirror.clear", MP+"LineProcMirror.send_eof", MP+"LineProcBuffer.receive", MP+"LineProcBuffer.wait", MP+"LineProcBuffer.mirror", MP+"LineProcBuffer.reset_states"])

p("C107", "setting the timeout of a mirror while other threads use it",
  "A mirror keeps its timeout in two attributes, __timeout and __block; the setter stores one after the other and every queue.put() is given both, without a lock. With one thread every call sees the timeout set last and a put waits exactly if it is None. If only one of several threads sets it, this holds of the calls of that thread, and the attributes fit together when it has ended. With any threads each argument of a put belongs to some timeout that was set; if None is never set no put waits, and if nothing but None is set every put waits. Refuted: the attributes fit together when no call is going on (two setters may leave either mixture for ever: without a timeout a put to a full queue then fails at once, with one it waits for it, with a negative one it raises ValueError); a put that runs beside one setter uses a timeout and the block that belongs to it; a setter that is interrupted sets nothing.",
  "every initial timeout, number of threads, sequence of calls, every schedule of loads and stores", "a race of two stores that no test can provoke reliably", [MP+"LineProcMirror.timeout", MP+"LineProcMirror.__init__", MP+"LineProcMirror.send_data", MP+"LineProcMirror.send_eof"])

p("C108", "what an exception from outside leaves of a LineHostMirror and its server",
  "An exception of any kind comes before any command of a method of a mirror or of the reader, and any request may fail on the network too (refused, no connection, answer lost). In every case the call ends and no lock is held. write() of an open mirror leaves nothing done; or, aggressive, the text handled once by the server; or the text held; or, if it ends a line, the held text handled once, and still held, held with the position at its beginning, or removed. new_line() leaves this of a line break; send_eof(), send_error(), send_warning() moreover make the server handle their message once, after the current line; close() closes the mirror only after the server has handled the end signal; clear() sends nothing; the other methods change nothing. If the stop signal is set, whatever goes wrong, write(), and every other method that would send text first (except for the error StopIteration, which is sent without asking), change nothing and send nothing. clear() makes an empty mirror out of whatever is left of an open one. The one request of a method of the reader is handled once or not at all. Refuted: a text is sent once (exception after the request: the next write() sends it again); a write() sends only text that was not sent (exception between seek(0) and truncate(0): the rest of the old text follows the new one).",
  "every server state, open mirror, held text, call, every sequence of exceptions and of network failures that say they are errors", "exceptions at every point of every call, with every failure of the network", [HO+"LineHostMirror.write", HO+"LineHostMirror.new_line", HO+"LineHostMirror.close", HO+"LineHostMirror.clear", HO+"LineHostMirror.send_eof", HO+"LineHostMirror.send_error", HO+"LineHostMirror.send_warning", HO+"LineHostReader.read", HO+"LineHostReader.clear"])

p("C109", "what the death of the process or an exception from outside leaves of a LineFileBuffer",
  "The process dies at any point of a call of an open LineFileBuffer, or an exception from outside leaves the call at any point; in the second case the call ends and its locks are released. new_line() with no unfinished line changes no file; otherwise the records are as C40 says of the unfinished line, files of others are unchanged, and the temporary file is unchanged unless the line is recorded completely. send_exc() leaves the records as C40 says of the record of the exception, and no other file changes. close() leaves what new_line() or send_exc() leaves, and the buffer is closed only when the unfinished line, or the exception, is recorded. clear(), in any state, leaves every file unchanged or removed; it removes only files <name>-<anything>.log and, after all of them, the temporary file. The other methods change nothing, and neither does a method other than clear() of a closed buffer. Refuted: what an interrupted clear() hides stays hidden (without the newest record read() finds nothing, but the older records come back when the next line is written).",
  "every directory, records, unfinished line, exception, every point of the call, every sequence of exceptions", "the process has to die, or an exception has to come, at every point of the call", [FI+"LineFileBuffer.new_line", FI+"LineFileBuffer.send_exc", FI+"LineFileBuffer.close", FI+"LineFileBuffer.clear", FI+"LineFileBuffer.read", FI+"LineFileBuffer.__update_records"])

p("C110", "force_stop() ends wait() whatever the other processes do meanwhile",
  "The main process is in wait(); any number of other processes and threads make any calls on any mirrors (also several on one mirror), force_stop() and stop_all_mirrors(). At any moment of any interleaving force_stop() returns at once, without a lock, and from then on wait() is never blocked and returns after a bounded number of its own steps, however the others go on, and also if some of them never make a step again (killed, whatever locks they hold). What it has recorded then does not depend on what the others do after force_stop(): it is what had arrived in the queue up to force_stop(), in order (or up to the end of the last stream, if that came before); what arrives later stays in the queue, in order. Refuted: this holds too if another thread is inside of receive() (it takes the marker and wait() is blocked for ever).",
  "every reachable system, every number of threads and processes, every list of calls, every schedule before and after force_stop(), every moment of force_stop()", "depends on the schedule before and after force_stop(); a test sees a few", [MP+"LineProcBuffer.force_stop", MP+"LineProcBuffer.wait", MP+"LineProcBuffer.receive", MP+"LineProcBuffer.stop_all_mirrors"])

p("C111", "showing lazy modules, placeholders and lazy attributes loads nothing",
  "repr() and str() of a module object of lazy_import or of a lazy attribute change nothing in any state: no code of a module is run, no class and no attribute changes (a lazy module: if its __spec__ was not set to None). The text is <LazyModule name from \"origin\"> as long as the module is lazy, <ModulePlaceholder name> of a placeholder, at any time, and neither of a module that is loaded or being loaded; after an access that loads it a module never shows itself as lazy again, whatever is done. A lazy attribute shows itself as <LazyAttribute attr from \"name\"> with the same text at any later time, also after it was used. Refuted: with __spec__ set to None, showing a lazy module loads nothing (it runs its code).",
  "every environment, every state, every sequence of operations", "a debugger or a log shows modules at any time, in any state", [UT+"_LazyModule.__repr__", UT+"_LazyAttribute.__repr__", UT+"_ModulePlaceholder.__repr__", UT+"_LazyModule.__getattribute__"])

p("C112", "from-imports of lazy modules and placeholders",
  "'from M import a' of a module object of lazy_import changes exactly what M.a changes (loads a lazy module) and gives the value of M.a; an exception of M.a comes out as it is, except for AttributeError: then the module registered as 'M.a' is given if there is one, else ImportError is raised; AttributeError never comes out. From a placeholder, at any later time, importing a name that it has not raises ImportError and changes nothing, and 'import *' binds nothing, changes nothing and raises nothing. 'from M import *' of a lazy module loads it; if it has no __all__ and nothing is raised, exactly the attributes that the module has afterwards and that do not begin with an underscore are bound; an exception other than AttributeError comes out; of a module whose code was started before, also if it raised, it changes nothing and raises nothing. Refuted: an exception of the code of the module always comes out of 'import *' (if it is an AttributeError it is lost, a part of the names is bound and the module is left half loaded); importing from a missing optional module always raises ImportError (not 'import *').",
  "every environment, every state, every name, every sequence of operations before", "depends on what the code of the modules does and raises, and on what is registered", [UT+"_LazyModule.__getattribute__", UT+"_ModulePlaceholder.__getattribute__", UT+"_ModulePlaceholder.__all__"])

with open(os.path.join(os.path.dirname(__file__), "..", "properties.jsonl"), "w") as f:
    for x in P:
        f.write(json.dumps(x, ensure_ascii=False) + "\n")
print(len(P))
