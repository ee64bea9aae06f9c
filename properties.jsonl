{"id": "C01", "title": "read() shows the last maxlen lines of the written text", "statement": "After any sequence of write(), new_line() and clear() calls on a fresh LineBuffer(maxlen), read() returns the last maxlen items of: the lines completed since the last clear, oldest first, followed by the unfinished line when it is not empty. Lines are cut at exactly the line boundaries of Python text (LF, VT, FF, CR, CRLF, FS, GS, RS, NEL, LS, PS).", "quantifier": "every maxlen >= 1, every finite sequence of operations, every text (all code points)", "why_tests_cant": "the space of texts, chunkings and histories is infinite; the tests use a few ASCII/Chinese samples with LF only", "anchors": ["syncstream/mproc.py:_LineBuffer.write", "syncstream/mproc.py:_LineBuffer.read", "syncstream/mproc.py:_LineBuffer.new_line", "syncstream/mproc.py:_LineBuffer.clear"]}
{"id": "C02", "title": "no character is lost, duplicated or reordered", "statement": "For any sequence of writes, the concatenation of the lines completed by those writes and the unfinished line equals the concatenation of the written texts with the line-break characters deleted; as long as no more than maxlen lines were completed, read() shows all of them.", "quantifier": "every finite sequence of written texts", "why_tests_cant": "a conservation law over all texts cannot be enumerated", "anchors": ["syncstream/mproc.py:_LineBuffer.write", "syncstream/mproc.py:_LineBuffer.read"]}
{"id": "C03", "title": "chunking does not matter, except inside CRLF", "statement": "write(a); write(b) leaves the buffer in the same observable state as write(a + b) whenever it is not the case that a ends with CR and b starts with LF. When a CRLF is cut between two writes an additional empty record appears (the exact exception).", "quantifier": "every buffer state, every pair of texts a, b", "why_tests_cant": "chunk boundaries of a stream are decided by the OS/print(); tests fix one chunking", "anchors": ["syncstream/mproc.py:_LineBuffer.write", "syncstream/base.py:is_end_line_break"]}
{"id": "C04", "title": "the buffer is bounded", "statement": "In every reachable state of a LineBuffer(maxlen) no more than maxlen finished records are held, and read(), read(n) and len() never exceed maxlen (read(n) also never exceeds n).", "quantifier": "every maxlen >= 1, every history of operations (including failing ones), every n", "why_tests_cant": "boundedness must hold after arbitrarily long histories", "anchors": ["syncstream/mproc.py:_LineBuffer.read", "syncstream/mproc.py:_LineBuffer.parse_lines", "syncstream/mproc.py:_LineBuffer.__len__"]}
{"id": "C05", "title": "read(n) is the last n items of read()", "statement": "read(n) returns exactly the last n items of what read() returns (all of them when n is larger), and the empty tuple when n <= 0.", "quantifier": "every reachable buffer state and every integer n", "why_tests_cant": "the implementation pops, rotates and re-appends the live deque; every combination of fill level, unfinished line and n has its own path", "anchors": ["syncstream/mproc.py:_LineBuffer.read"]}
{"id": "C06", "title": "read() does not disturb the buffer", "statement": "read() and read(n), although implemented by popping and rotating the live storage, leave the buffer exactly as it was: a later sequence of operations gives the same results with or without the reads.", "quantifier": "every reachable state, every n, every later history", "why_tests_cant": "needs a whole-state comparison over all states", "anchors": ["syncstream/mproc.py:_LineBuffer.read"]}
{"id": "C07", "title": "a text record never contains a line break", "statement": "No text record returned by read() contains any line-break character, whatever was written.", "quantifier": "every history of writes and every read", "why_tests_cant": "for all texts", "anchors": ["syncstream/mproc.py:_LineBuffer.write", "syncstream/mproc.py:_LineBuffer.read"]}
{"id": "C08", "title": "new_line() finishes the current line and is idempotent", "statement": "new_line() does nothing when the current line is empty; otherwise it is equivalent to write('\\n'). Calling it twice equals calling it once.", "quantifier": "every reachable state of an open buffer", "why_tests_cant": "all states", "anchors": ["syncstream/mproc.py:_LineBuffer.new_line"]}
{"id": "C09", "title": "len() of the in-memory buffers", "statement": "For LineBuffer, LineProcBuffer and LineHostBuffer, len(buf) equals len(buf.read()) exactly when an unfinished line is present or the storage is full; otherwise len(buf) is one too large (in particular an empty buffer reports 1). The docstring claim 'number of lines/items in the buffer' is refuted.", "quantifier": "every reachable state of an open buffer", "why_tests_cant": "the unit test only checks a state where the two agree", "anchors": ["syncstream/mproc.py:_LineBuffer.__len__", "syncstream/host.py:LineHostBuffer.serve"]}
{"id": "C10", "title": "what write() returns", "statement": "LineBuffer.write(data) returns 0 for the empty text, 1 when data is a single line break, the length of data when it has no line break, and otherwise the length of the text after the last line break. The docstring claim (number of written lines) is refuted. A write() of a LineBuffer or LineFileBuffer that returns returns this number in every execution: any threads and calls, any interleaving, any exceptions from outside in other calls.", "quantifier": "every state and every text, every execution", "why_tests_cant": "for all texts and schedules", "anchors": ["syncstream/mproc.py:_LineBuffer.write", "syncstream/file.py:LineFileBuffer.write"]}
{"id": "C11", "title": "life cycle: nothing is readable or writable after close()", "statement": "After close() of a LineBuffer: closed is True, readable() and writable() are False, read and write raise OSError, every operation leaves the buffer unchanged, a second close() does nothing, and no later operation re-opens it. clear() and new_line() raise ValueError then, which refutes 'clear() should always success'.", "quantifier": "every history before and after close()", "why_tests_cant": "quantifies over all continuations", "anchors": ["syncstream/mproc.py:_LineBuffer.close", "syncstream/mproc.py:_LineBuffer.clear", "syncstream/mproc.py:_LineBuffer.closed", "syncstream/mproc.py:_LineBuffer.readable", "syncstream/mproc.py:_LineBuffer.writable"]}
{"id": "C12", "title": "clear() forgets everything", "statement": "After clear() on an open buffer, read() is empty and every later history behaves exactly like on a fresh buffer of the same maxlen.", "quantifier": "every reachable open state, every later history", "why_tests_cant": "all continuations", "anchors": ["syncstream/mproc.py:_LineBuffer.clear"]}
{"id": "C13", "title": "line-break test", "statement": "is_end_line_break(s) is True exactly when s is non-empty and its last character is one of the ten line-break characters of Python text.", "quantifier": "every text", "why_tests_cant": "all strings", "anchors": ["syncstream/base.py:is_end_line_break"]}
{"id": "C14", "title": "maxlen validation", "statement": "LineBuffer(maxlen) and LineFileBuffer(path, maxlen) raise TypeError unless maxlen is an int >= 1; when construction succeeds, .maxlen stays equal to that int for the whole life of the buffer.", "quantifier": "every argument value, every later history", "why_tests_cant": "all arguments and histories", "anchors": ["syncstream/mproc.py:_LineBuffer.__init__", "syncstream/mproc.py:_LineBuffer.maxlen", "syncstream/file.py:LineFileBuffer.__init__"]}
{"id": "C15", "title": "parse_lines override sees exactly the completed lines", "statement": "If a subclass overrides parse_lines, the successive calls receive exactly the completed lines in order, whatever the override does with them (as long as it does not touch the current line itself); an override that calls a locking method of the same buffer such as read() or write() blocks forever (deadlock).", "quantifier": "every override, every sequence of writes", "why_tests_cant": "quantifies over user code", "anchors": ["syncstream/mproc.py:_LineBuffer.parse_lines", "syncstream/mproc.py:_LineBuffer.write"]}
{"id": "C16", "title": "concurrent write/read/new_line are linearizable", "statement": "Any number of threads may call write(), read(), read(n), new_line(), flush(), readable(), writable(), closed on one open LineBuffer: every complete interleaved execution gives each call the result, and the buffer the final content, of some sequential order of the same calls that respects each thread's program order.", "quantifier": "every number of threads, every program of calls, every interleaving at the granularity of single container/lock operations", "why_tests_cant": "schedules cannot be enumerated by tests", "anchors": ["syncstream/mproc.py:_LineBuffer.write", "syncstream/mproc.py:_LineBuffer.read", "syncstream/mproc.py:_LineBuffer.new_line"]}
{"id": "C17", "title": "locks are always released and cannot deadlock", "statement": "Every public method of LineBuffer releases the lock on every normal and exceptional exit, and in every reachable configuration of any number of threads calling public methods (including clear and close) either all threads are finished or some thread can take a step.", "quantifier": "every number of threads, every program of calls, every interleaving", "why_tests_cant": "schedules", "anchors": ["syncstream/mproc.py:_LineBuffer"]}
{"id": "C18", "title": "clear() is not atomic", "statement": "clear() concurrent with write() can leave a state no sequential order of the two calls can produce (the new finished lines are lost while the unfinished tail of the same write survives), and clear() concurrent with read() can bring back a cleared record or make read(n) raise IndexError. The docstring claim 'this method is thread-safe' is refuted. The bound maxlen still holds.", "quantifier": "existential witnesses (refutations); the bound for every schedule", "why_tests_cant": "race windows", "anchors": ["syncstream/mproc.py:_LineBuffer.clear", "syncstream/mproc.py:_LineBuffer.read"]}
{"id": "C19", "title": "close() race", "statement": "Two concurrent close() calls can make one raise ValueError, and a write() concurrent with close() can raise ValueError instead of the documented OSError; the claim 'the second call will do nothing' is refuted under concurrency (it holds sequentially, C11).", "quantifier": "existential witnesses", "why_tests_cant": "race windows", "anchors": ["syncstream/mproc.py:_LineBuffer.close", "syncstream/mproc.py:_LineBuffer.write"]}
{"id": "C20", "title": "reading while receive() records an error", "statement": "LineProcBuffer.receive() appends error/warning items without the buffer lock: a concurrent read() can drop that item and a concurrent read(n) can permanently reorder the records; when receive() and read never overlap this cannot happen.", "quantifier": "existential witnesses (refutation)", "why_tests_cant": "race windows", "anchors": ["syncstream/mproc.py:LineProcBuffer.receive", "syncstream/mproc.py:_LineBuffer.read"]}
{"id": "C21", "title": "a mirror is transparent", "statement": "For one LineProcMirror feeding a LineProcBuffer, after any sequence of writes and after all queued messages were received, the records of the main buffer are exactly those of a LineBuffer written directly, and main unfinished line + text held in the mirror = the unfinished line of the direct buffer. In aggressive mode the mirror never holds text.", "quantifier": "every sequence of written texts, both modes, every maxlen", "why_tests_cant": "all texts and chunkings", "anchors": ["syncstream/mproc.py:LineProcMirror.write", "syncstream/mproc.py:LineProcBuffer.receive"]}
{"id": "C22", "title": "a mirror's write() returns the number of characters", "statement": "LineProcMirror.write(data) and LineHostMirror.write(data), when they return, return len(data) for every data in both modes (not the number of lines as documented), in every execution: any threads and calls, any interleaving, any faults of requests, any exceptions from outside in other calls.", "quantifier": "every mirror state, every text, every execution", "why_tests_cant": "for all texts and schedules", "anchors": ["syncstream/mproc.py:LineProcMirror.write", "syncstream/host.py:LineHostMirror.write"]}
{"id": "C23", "title": "messages of several mirrors are interleaved, never reordered per mirror", "statement": "For any number of mirrors and any schedule of their queue operations, the sequence received by the main buffer is an interleaving of the per-mirror message sequences: nothing is lost, duplicated or reordered within one mirror.", "quantifier": "every number of mirrors, every program, every schedule", "why_tests_cant": "schedules", "anchors": ["syncstream/mproc.py:LineProcMirror.send_data", "syncstream/mproc.py:LineProcBuffer.receive"]}
{"id": "C24", "title": "line integrity across mirrors", "statement": "If every text written to the (non-aggressive) mirrors contains line breaks at most at its end, then the records of the main buffer are an interleaving of the lines of the individual mirrors (no record mixes text of two mirrors). Without that condition a record can mix text of two mirrors (refuted: mirror A writes 'a\\nb', mirror B writes 'c\\n', giving record 'bc').", "quantifier": "every number of mirrors, every program meeting the condition, every schedule", "why_tests_cant": "schedules", "anchors": ["syncstream/mproc.py:LineProcMirror.write", "syncstream/mproc.py:LineProcBuffer.receive"]}
{"id": "C25", "title": "wait() returns exactly when every mirror has finished", "statement": "If n mirrors were handed out and each sends exactly one end signal (close or error) after its data, then wait() returns, it returns False only at the last end signal, all data of all mirrors was received by then, the queue is empty and n_mirrors is 0.", "quantifier": "every n >= 1, every message contents, every interleaving", "why_tests_cant": "schedules", "anchors": ["syncstream/mproc.py:LineProcBuffer.wait", "syncstream/mproc.py:LineProcBuffer.receive", "syncstream/mproc.py:LineProcBuffer.mirror"]}
{"id": "C26", "title": "more than one end signal per mirror breaks wait()", "statement": "If a mirror sends two end signals (send_eof() inside its own context) wait() can return while data of another mirror is still unreceived; n_mirrors can become negative, stays negative through reset_states(), and makes a later wait() return early.", "quantifier": "existential witnesses (refutation of 'wait until the close signal is received' for all mirrors)", "why_tests_cant": "schedules", "anchors": ["syncstream/mproc.py:LineProcBuffer.receive", "syncstream/mproc.py:LineProcBuffer.reset_states", "syncstream/mproc.py:LineProcMirror.send_eof"]}
{"id": "C27", "title": "stop_all_mirrors() stops every later write", "statement": "After stop_all_mirrors(), every write() on every mirror raises StopIteration, puts nothing in the queue and leaves the text held by the mirror unchanged, until reset_states() is called.", "quantifier": "every mirror state, every text, every later history without reset", "why_tests_cant": "all continuations", "anchors": ["syncstream/mproc.py:LineProcBuffer.stop_all_mirrors", "syncstream/mproc.py:LineProcMirror.write"]}
{"id": "C28", "title": "a stopped mirror holding a partial line cannot send its end signal", "statement": "After stop_all_mirrors(), close()/close(exc)/send_eof()/send_error()/send_warning()/context exit of a LineProcMirror that holds a non-empty partial line raise StopIteration without sending anything, so wait() never returns (it blocks); if the mirror holds no partial line, the end signal is sent.", "quantifier": "every stopped mirror state, every exception value", "why_tests_cant": "depends on where the stop signal lands between two writes of one print()", "anchors": ["syncstream/mproc.py:LineProcMirror.close", "syncstream/mproc.py:LineProcMirror.send_error", "syncstream/mproc.py:LineProcMirror.new_line"]}
{"id": "C29", "title": "closing a mirror flushes and signals once", "statement": "close(exc) of an open, not stopped LineProcMirror that is not aggressive or holds no text (C66 has the other case), with room in the queue, sends the held partial line (with a line break) first, then exactly one end signal (close, or error carrying the exception), and leaves the mirror closed and empty; later close(), send_*() send nothing and write() raises OSError.", "quantifier": "every mirror state, every exception, every later history", "why_tests_cant": "all states and continuations", "anchors": ["syncstream/mproc.py:LineProcMirror.close", "syncstream/mproc.py:LineProcMirror.send_eof", "syncstream/mproc.py:LineProcMirror.send_error"]}
{"id": "C30", "title": "force_stop() ends wait()", "statement": "After force_stop(), wait() returns after handling the messages queued before the stop (or earlier if the mirrors finish first); when it returns at the stop signal n_mirrors is 0 and everything queued before the stop has been recorded.", "quantifier": "every queue content, every n_mirrors", "why_tests_cant": "all queue contents", "anchors": ["syncstream/mproc.py:LineProcBuffer.force_stop", "syncstream/mproc.py:LineProcBuffer.receive"]}
{"id": "C31", "title": "reset_states() guards and resets", "statement": "reset_states() raises TypeError and changes nothing when n_mirrors > 0; otherwise the stop flag is False, the new mirror is open and empty with an empty queue, records are kept, and messages sent by old mirrors are never received.", "quantifier": "every state", "why_tests_cant": "all states", "anchors": ["syncstream/mproc.py:LineProcBuffer.reset_states"]}
{"id": "C32", "title": "LineProcMirror.read(size)", "statement": "mirror.read() returns exactly the text held; mirror.read(size) returns the empty text for every size, in every reachable state; the docstring claim (last size items) is refuted.", "quantifier": "every reachable mirror state, every size", "why_tests_cant": "all states", "anchors": ["syncstream/mproc.py:LineProcMirror.read"]}
{"id": "C33", "title": "the timeout of a mirror is not a timeout", "statement": "With timeout set, sending to a full queue fails immediately with queue.Full even if a slot becomes free before the timeout expires; with timeout None it waits. The documented meaning of timeout is refuted.", "quantifier": "every timeout value, every time at which a slot becomes free", "why_tests_cant": "timing", "anchors": ["syncstream/mproc.py:LineProcMirror.__init__", "syncstream/mproc.py:LineProcMirror.timeout", "syncstream/mproc.py:LineProcMirror.send_data"]}
{"id": "C34", "title": "LineProcBuffer.write()/LineHostBuffer.write() never write", "statement": "Calling write() directly on a LineProcBuffer or a LineHostBuffer always raises NotImplementedError and changes nothing; fileno() and seek() of all classes always raise OSError.", "quantifier": "every state, every text", "why_tests_cant": "all states", "anchors": ["syncstream/mproc.py:LineProcBuffer.write", "syncstream/host.py:LineHostBuffer.write"]}
{"id": "C35", "title": "order of error records against unfinished text (process mode)", "statement": "In process mode an error item is recorded before the unfinished text its mirror already sent (write('a\\nb'); send_error(e) is read as a, e, b); when all text sent by the mirrors is line-terminated, items are recorded in sending order. ", "quantifier": "every sequence meeting the condition; witness for the violation", "why_tests_cant": "all histories", "anchors": ["syncstream/mproc.py:LineProcBuffer.receive", "syncstream/mproc.py:LineProcMirror.send_error"]}
{"id": "C36", "title": "first use of a mirror by two threads", "statement": "The internal lock of a LineProcMirror/LineHostMirror is created lazily: two threads using a fresh mirror at the same time can both be inside the critical section and lose text (refutes 'the method is thread-safe'). If the lock already exists, concurrent writes of several threads are equivalent to some sequential order.", "quantifier": "existential witness; every schedule for the positive part", "why_tests_cant": "race windows", "anchors": ["syncstream/mproc.py:LineProcMirror.__buffer_lock", "syncstream/mproc.py:LineProcMirror.write", "syncstream/host.py:LineHostMirror.__buffer_lock"]}
{"id": "C37", "title": "LineFileBuffer is observationally a LineBuffer", "statement": "For one process, any sequence of write/new_line/read/read(n)/clear on LineFileBuffer(path, maxlen) over an empty directory gives the same write results and the same read results as the same calls on LineBuffer(maxlen); on disk there are exactly min(number of completed lines, maxlen) record files, the newest having number 0.", "quantifier": "every maxlen >= 1, every history", "why_tests_cant": "all histories", "anchors": ["syncstream/file.py:LineFileBuffer.write", "syncstream/file.py:LineFileBuffer.read", "syncstream/file.py:LineFileBuffer.clear"]}
{"id": "C38", "title": "LineFileBuffer.read(n) and len()", "statement": "read(n) is the last n items of read() (empty when n <= 0), reading changes no file, and len(buf) equals len(buf.read()).", "quantifier": "every directory content, every n", "why_tests_cant": "all directory contents including gaps and foreign files", "anchors": ["syncstream/file.py:LineFileBuffer.read", "syncstream/file.py:LineFileBuffer.__len__"]}
{"id": "C39", "title": "several processes share one log without mixing lines", "statement": "For any number of processes with distinct tmp_id sharing one path and maxlen, any interleaving at the granularity of single file-system operations gives a log which is the last maxlen records of an interleaving of the batches of complete lines of the individual processes: no line mixes text of two processes, per-process order is kept, nothing is lost except by rotation. With clear() and close() among the calls the log is what the additions and removals of the individual calls make of it in some order that keeps the order of each process, and clear() of one process leaves the unfinished lines of the others alone. The results of all calls and the final directory are those of some sequential order of the calls, and no deadlock is possible.", "quantifier": "every number of processes, every program of calls, every interleaving", "why_tests_cant": "schedules", "anchors": ["syncstream/file.py:LineFileBuffer.write", "syncstream/file.py:LineFileBuffer.__update_records", "syncstream/file.py:LineFileBuffer.clear", "syncstream/file.py:LineFileBuffer.close"]}
{"id": "C40", "title": "crash during a write of LineFileBuffer", "statement": "If the process dies at any point inside write() (or send_exc()), starting from a log without gaps: every record file on disk is an old record or a new line, unaltered, except at most one that holds a prefix of the new line being written; no record is on disk twice; every old record that the completed write would have kept still exists under some number below maxlen; with at most one completed line, or when nothing is rotated out, records keep their order by file number; no file other than the records and the buffer's temporary file changes; and the temporary file is only changed by appending a prefix of the text (no line completed) or after all lines have been recorded.", "quantifier": "every log state, every text, every crash point (single characters)", "why_tests_cant": "crash points", "anchors": ["syncstream/file.py:LineFileBuffer.__update_records", "syncstream/file.py:LineFileBuffer.__write", "syncstream/file.py:LineFileBuffer.send_exc"]}
{"id": "C41", "title": "crash windows that users can observe", "statement": "A crash between renaming and writing makes all records invisible to read() although they are still on disk (until further lines are written); a crash between recording a line and emptying the temporary file makes the line appear twice after restart and glues it to the next line; a crash while writing leaves a truncated record; one crash while two lines are written to a full log, followed by a normal write, makes read() return records out of order. (refutations of durability, exactly-once, atomicity and order under crashes)", "quantifier": "existential witnesses", "why_tests_cant": "crash points", "anchors": ["syncstream/file.py:LineFileBuffer.__update_records", "syncstream/file.py:LineFileBuffer.__write", "syncstream/file.py:LineFileBuffer.__clean_last_line"]}
{"id": "C42", "title": "clear() of LineFileBuffer", "statement": "For a path without glob characters, clear() removes exactly the files named <path>-<anything>.log and this buffer's temporary file: afterwards read() is empty. Therefore it also removes the records of a different buffer whose path is <path>-<something> (isolation refuted), and for a path containing glob characters such as '[' it may remove nothing (refuted).", "quantifier": "every directory content, every path", "why_tests_cant": "all names", "anchors": ["syncstream/file.py:LineFileBuffer.clear"]}
{"id": "C43", "title": "file names do not collide", "statement": "Record files are named by the path and the decimal number (no leading zeros); two have the same name only if both path and number agree. Temporary names do collide: path 'a-b' with tmp_id 'c' and path 'a' with tmp_id 'b-c' use the same temporary file and lock (refuted).", "quantifier": "all paths, tmp_ids and numbers", "why_tests_cant": "all names", "anchors": ["syncstream/file.py:LineFileBuffer.__init__", "syncstream/file.py:LineFileBuffer.__tmp_file_path", "syncstream/file.py:LineFileBuffer.__update_records"]}
{"id": "C44", "title": "exceptions in LineFileBuffer are one record", "statement": "send_exc(e) records the formatted traceback as exactly one record that read() returns as one string (lines joined by LF), whatever line breaks it contains. It does not flush the current line: the record precedes text written earlier (order refuted), and close(exc)/context exit with an exception leave that text in the temporary file.", "quantifier": "every exception text, every state", "why_tests_cant": "all texts", "anchors": ["syncstream/file.py:LineFileBuffer.send_exc", "syncstream/file.py:LineFileBuffer.close", "syncstream/file.py:LineFileBuffer.__exit__"]}
{"id": "C45", "title": "life cycle of LineFileBuffer", "statement": "After close(): closed is True forever, read/write raise OSError, new_line/send_exc/close do nothing; the only method that still changes files is clear(). close() flushes the unfinished line into a record.", "quantifier": "every history before and after", "why_tests_cant": "all continuations", "anchors": ["syncstream/file.py:LineFileBuffer.close", "syncstream/file.py:LineFileBuffer.readable", "syncstream/file.py:LineFileBuffer.writable"]}
{"id": "C46", "title": "sharing a log with different maxlen", "statement": "A buffer with a smaller maxlen on the same path shows the newest records; writing through it may drop records from the middle of the sequence seen by a buffer with a larger maxlen, but never reorders what remains.", "quantifier": "every pair of maxlen, every log content, every written batch", "why_tests_cant": "all contents", "anchors": ["syncstream/file.py:LineFileBuffer.__update_records", "syncstream/file.py:LineFileBuffer.read"]}
{"id": "C47", "title": "messages survive serialization", "statement": "GroupedMessage.deserialize(m.serialize()) has the type and data of m, also after a trip through JSON; plain text records are passed through unchanged; deserialize of anything that is not an object with a true '/is_syncsdata' and '/type' equal to 'GroupedMessage' returns it unchanged; an object so marked becomes the message of its 'type' and the items of its 'data' (KeyError if one is missing, TypeError if 'data' has no items).", "quantifier": "every message, every JSON value", "why_tests_cant": "all values", "anchors": ["syncstream/base.py:GroupedMessage.serialize", "syncstream/base.py:GroupedMessage.deserialize", "syncstream/base.py:is_serialized_grouped_message"]}
{"id": "C48", "title": "LineHostReader reads what the host buffer holds", "statement": "In every state reachable by well-formed requests, LineHostReader.read(size) returns the same items as LineHostBuffer.read(max(0,size)) on the server (read() for size None), and reading changes nothing on the server.", "quantifier": "every server history of well-formed requests, every size", "why_tests_cant": "all histories", "anchors": ["syncstream/host.py:LineHostReader.read", "syncstream/host.py:LineHostBuffer.read_serialized", "syncstream/host.py:LineHostBuffer.serve"]}
{"id": "C49", "title": "effect of each POST message on the host buffer", "statement": "A 'str' message acts like write(value) on the buffer; 'error'/'warning' finish the current line and then append exactly one message item; 'close' finishes the current line; an unknown type is rejected with an error and changes nothing; GET changes nothing, and is rejected if its argument n is not a number (decimal digits, single underscores between digits, sign, blanks around it); DELETE empties the buffer.", "quantifier": "every server state, every request", "why_tests_cant": "all requests and states", "anchors": ["syncstream/host.py:LineHostBuffer.serve"]}
{"id": "C50", "title": "a malformed error message poisons the host buffer", "statement": "POST {'type':'error','data':{}} is answered 'success' but afterwards every GET whose range covers that item fails, until it is rotated out or DELETE is called; such a request that is marked as serialized but has no 'type' or 'data' key (KeyError), or whose data cannot be made a tuple (TypeError), fails after having already finished the current line; every other marked one is stored. (robustness refuted)", "quantifier": "every server state before, every later GET", "why_tests_cant": "all states", "anchors": ["syncstream/host.py:LineHostBuffer.serve", "syncstream/host.py:LineHostBuffer.read_serialized", "syncstream/base.py:GroupedMessage.deserialize"]}
{"id": "C51", "title": "reset_states() of the host loses maxlen", "statement": "LineHostReader.maxlen returns the configured maxlen until reset_states() is called (locally or by DELETE on the state service); afterwards it returns None forever, although the buffer bound itself is unchanged.", "quantifier": "every history", "why_tests_cant": "all histories", "anchors": ["syncstream/host.py:LineHostBuffer.reset_states", "syncstream/host.py:LineHostReader.maxlen"]}
{"id": "C52", "title": "stop signal over HTTP", "statement": "After stop_all_mirrors() (local or through LineHostReader) every later LineHostMirror.write() raises StopIteration and sends nothing until the state is reset; only the value 'true' (any case, surrounding blanks ignored) sets the flag; reader.closed reports exactly this flag and not whether the server's buffer was closed.", "quantifier": "every mirror state, text and history", "why_tests_cant": "all continuations", "anchors": ["syncstream/host.py:LineHostMirror.check_states", "syncstream/host.py:LineHostBuffer.stop_all_mirrors", "syncstream/host.py:LineHostReader.stop_all_mirrors", "syncstream/host.py:LineHostReader.closed"]}
{"id": "C53", "title": "closing a stopped host mirror", "statement": "After a stop, close(StopIteration) of a LineHostMirror still delivers the held partial line and then the error item; close() or close(other exception) of a stopped mirror that holds a partial line raises StopIteration and delivers nothing.", "quantifier": "every stopped mirror state, every exception", "why_tests_cant": "depends on stop timing", "anchors": ["syncstream/host.py:LineHostMirror.send_error", "syncstream/host.py:LineHostMirror.send_eof", "syncstream/host.py:LineHostMirror.new_line"]}
{"id": "C54", "title": "host mirror is transparent", "statement": "For any number of LineHostMirrors posting to one server in any order, each message is applied atomically; for a single mirror the server's buffer holds what a LineBuffer written directly would hold, up to the partial line held by the mirror, provided that the texts contain no surrogate pair written as two characters (refuted otherwise).", "quantifier": "every sequence of texts, both modes, every interleaving of requests", "why_tests_cant": "all texts and schedules", "anchors": ["syncstream/host.py:LineHostMirror.write", "syncstream/host.py:LineHostBuffer.serve"]}
{"id": "C55", "title": "failed delivery keeps the text", "statement": "If the request that delivers the text fails (no connection, or an error status), a non-aggressive LineHostMirror keeps all undelivered text including the text of the failing write, and the next successful delivery sends it exactly once, in order; an aggressive mirror drops the text of the failing write, and so do both if already the question for the stop signal fails. A caller that repeats the failed write therefore duplicates it (non-aggressive). If only the answer gets lost, the text is delivered twice (refutes exactly once).", "quantifier": "every failure pattern, every sequence of texts", "why_tests_cant": "fault schedules", "anchors": ["syncstream/host.py:LineHostMirror.write", "syncstream/host.py:LineHostMirror.send_data"]}
{"id": "C56", "title": "concurrent requests on the host are serialized", "statement": "Any number of concurrent POST/GET/DELETE requests handled by different server threads are equivalent to some sequential order; every request is answered (no deadlock between the locks used by the handlers).", "quantifier": "every number of handler threads, every interleaving", "why_tests_cant": "schedules", "anchors": ["syncstream/host.py:LineHostBuffer.serve"]}
{"id": "C57", "title": "reader connection life cycle", "statement": "Before LineHostReader is entered for the first time, every request has a pool of its own that is cleared afterwards. The first enter creates the pool that all later requests use, also after the context was left (refutes the temporary pools of the docstring); entering again creates nothing, but every exit clears the pool, also the exit of an inner context (refutes that re-entering has no effect).", "quantifier": "every sequence of enter/exit/read", "why_tests_cant": "all histories", "anchors": ["syncstream/host.py:LineHostReader.__enter__", "syncstream/host.py:LineHostReader.__exit__"]}
{"id": "C58", "title": "endpoint and route inference", "statement": "The endpoint inferred from an api_route is the route without leading slashes with '/' replaced by '.'; distinct routes can infer the same endpoint (e.g. '/a/b' and '/a.b'), and the state route of one buffer can equal the main route of another ('/x' and '/x-state').", "quantifier": "every route", "why_tests_cant": "all strings", "anchors": ["syncstream/host.py:LineHostBuffer.__init__", "syncstream/host.py:LineHostBuffer.serve"]}
{"id": "C59", "title": "text form of a GroupedMessage", "statement": "str(GroupedMessage(data)) is the data lines joined by LF; for an exception the lines are those of the formatted traceback, contain no line break, and splitting the text again gives the same lines exactly when the last line is not empty.", "quantifier": "every data value, every traceback text", "why_tests_cant": "all texts", "anchors": ["syncstream/base.py:GroupedMessage.__init__", "syncstream/base.py:GroupedMessage.__str__"]}
{"id": "C60", "title": "redirection is undone", "statement": "Properly nested use of any number of distinct buffers/mirrors as contexts restores sys.stdout and sys.stderr exactly, whether or not the body raises; while inside, both point to the innermost buffer. Re-entering the same buffer leaves sys.stdout = None after the outer exit, and overlapping (non-nested) contexts of two threads leave stdout redirected (refutations). redirect_stdout/redirect_stderr of the package are re-entrant: any properly nested use, also of the same object, restores the stream.", "quantifier": "every nesting structure", "why_tests_cant": "all nestings and interleavings", "anchors": ["syncstream/mproc.py:LineBuffer.__enter__", "syncstream/mproc.py:LineBuffer.__exit__", "syncstream/base.py:redirect_stdout", "syncstream/base.py:redirect_stderr"]}
{"id": "C61", "title": "lazy_import is idempotent", "statement": "Once lazy_import(name) returned a module, every later call for the same full name returns the same object and changes nothing, whatever the other arguments.", "quantifier": "every module table, every argument", "why_tests_cant": "all histories", "anchors": ["syncstream/utils.py:lazy_import"]}
{"id": "C62", "title": "missing optional dependencies", "statement": "For a name not yet in the module table (without packages, or in packages that are loaded; C105 has the others): if a dependency is missing or the module does not exist, required=True raises ModuleNotFoundError and changes nothing, required=False yields a placeholder, and get_lazy_attribute on the placeholder yields None; otherwise a lazy module is returned. A later required=True call for a name that already has a placeholder returns the placeholder instead of raising (refuted: 'required').", "quantifier": "every environment, every argument", "why_tests_cant": "all environments", "anchors": ["syncstream/utils.py:lazy_import", "syncstream/utils.py:get_lazy_attribute", "syncstream/utils.py:is_module_invalid"]}
{"id": "C63", "title": "lazy attributes load once", "statement": "The code of a lazily imported module is run at most once in every history; a lazy attribute yields the attribute of its module and, once it has yielded an object other than None, the same object at every later time; after the first use the parent package exposes this object. An attribute whose value is None is looked up at every use (refuted for None).", "quantifier": "every sequence of accesses", "why_tests_cant": "all histories", "anchors": ["syncstream/utils.py:_LazyAttribute"]}
{"id": "C64", "title": "JSON text round trip of host messages", "statement": "Every message body built by LineHostMirror/LineHostReader or by the server, once encoded as JSON text (ASCII escapes) and decoded again, is the same value, for all texts without adjacent lone surrogates; adjacent lone surrogates are merged (refuted for those). All answers of the server are such values if all requests are, whatever the interleaving of its threads; but two texts without adjacent lone surrogates may be joined by the server into one with a pair.", "quantifier": "every message and text", "why_tests_cant": "all texts", "anchors": ["syncstream/host.py:LineHostMirror.send_data", "syncstream/host.py:LineHostMirror.send_error", "syncstream/host.py:LineHostReader.read"]}
{"id": "C65", "title": "len() is not atomic", "statement": "len(buf) reads the storage outside the lock: concurrent with read(n) it can report a number that is correct neither before nor after the read (refutation of thread-safety of len); in every execution it lies between 1 and maxlen.", "quantifier": "existential witness; the range for every number of threads, every program, every schedule", "why_tests_cant": "needs one particular interleaving", "anchors": ["syncstream/mproc.py:_LineBuffer.__len__", "syncstream/mproc.py:_LineBuffer.read"]}
{"id": "C66", "title": "switching a mirror to aggressive mode while it holds text", "statement": "If aggressive is switched on while a LineProcMirror holds text, write(data) sends exactly data and new_line() sends only a line break; the held text stays where it is, and close() sends only a line break and the end signal and discards the held text.", "quantifier": "every reachable open, not stopped mirror with room in its queue", "why_tests_cant": "all reachable states and texts", "anchors": ["syncstream/mproc.py:LineProcMirror.__write", "syncstream/mproc.py:LineProcMirror.close", "syncstream/mproc.py:LineProcMirror.new_line"]}
{"id": "C67", "title": "a used mirror cannot be pickled", "statement": "Once any method that uses the internal lock was called on a LineProcMirror, pickling it (sending it to a process) fails for ever with TypeError (ValueError once it is closed); a mirror that can still be pickled holds no text and is open, and the copy is a new mirror with the same settings and the same queue.", "quantifier": "every reachable mirror, every later history", "why_tests_cant": "all histories", "anchors": ["syncstream/mproc.py:LineProcMirror.__init__", "syncstream/mproc.py:LineProcMirror.__buffer_lock"]}
{"id": "C68", "title": "receiving into a closed main buffer", "statement": "receive() on a closed LineProcBuffer raises OSError for a text message, which is lost: it is removed from the queue and recorded nowhere.", "quantifier": "every reachable system", "why_tests_cant": "all reachable states", "anchors": ["syncstream/mproc.py:LineProcBuffer.receive", "syncstream/mproc.py:_LineBuffer.write"]}
{"id": "C69", "title": "the suffix of file_path is ignored", "statement": "LineFileBuffer drops the part of the file name after its last dot: paths that differ only in that part (run-2024.01.30 and run-2024.01.31) share records, temporary file and locks (refutes that distinct paths give distinct logs).", "quantifier": "all directories, base names and suffixes", "why_tests_cant": "all paths", "anchors": ["syncstream/file.py:LineFileBuffer.__init__"]}
{"id": "C70", "title": "text that UTF-8 cannot encode", "statement": "write() of an unfinished line containing a lone surrogate raises UnicodeEncodeError and changes neither records nor unfinished line; but when the write completes several lines, the failure comes after the old records were renumbered, and they all become invisible to read() (refutes that a failed write has no effect).", "quantifier": "every state and text; existential witness for the second part", "why_tests_cant": "all states", "anchors": ["syncstream/file.py:LineFileBuffer.__write_last_line", "syncstream/file.py:LineFileBuffer.__update_records", "syncstream/file.py:LineFileBuffer.__write"]}
{"id": "C71", "title": "error pages of the host and the exceptions of the clients", "statement": "A request that the server rejects makes the client raise ConnectionError only if the error page of the application is a JSON object (AttributeError for any other JSON value); with the HTML pages that Flask sends by default the client raises ValueError (a JSON decode error) instead of the documented ConnectionError.", "quantifier": "every application, every rejected reading request", "why_tests_cant": "depends on the application's error handler", "anchors": ["syncstream/host.py:LineHostReader.read", "syncstream/host.py:LineHostMirror.send_data"]}
{"id": "C72", "title": "a dependency that is itself a placeholder", "statement": "lazy_import(..., dependencies=[... d ...]) raises ValueError, also with required=False, if the module d was replaced by a placeholder before (instead of making another placeholder).", "quantifier": "every environment, every later history, every list of dependencies whose members before d are found", "why_tests_cant": "all histories", "anchors": ["syncstream/utils.py:_LazyImporter.check_is_dep_missing", "syncstream/utils.py:_ModulePlaceholder"]}
{"id": "C73", "title": "a lazy module is loaded by one access only", "statement": "After the first access to an unprotected attribute of a lazy module, whether its code raised or not, every later access is a plain lookup of what the code had defined; a module whose code raised once is never run again, even if it would succeed now (refuted: retry as for an ordinary import).", "quantifier": "every environment, every later history, every attribute", "why_tests_cant": "all histories", "anchors": ["syncstream/utils.py:_LazyModule.__getattribute__"]}
{"id": "C74", "title": "rel_dependencies are not loaded", "statement": "With importlib of CPython 3.11.9 and later, the first access of a lazy module runs only its own code: the modules given as rel_dependencies are not loaded, contrary to the docstrings of force_load() and gather_relative_module_dependencies().", "quantifier": "every world, every module whose code only defines attributes", "why_tests_cant": "depends on the version of importlib", "anchors": ["syncstream/utils.py:_LazyModule.force_load", "syncstream/utils.py:_LazyModule.load_deps", "syncstream/utils.py:_LazyImporter.gather_relative_module_dependencies"]}
{"id": "C75", "title": "print() reaches the innermost context", "statement": "In any properly nested code with print() calls, exceptions and try/except, each printed text is written to the innermost active target of its stream (print to sys.stderr = None goes to sys.stdout, both None: nowhere), one print() call whose writes succeed gives its target the arguments with the separator between them and the end text, each context is left exactly once with the exception that passes, and the streams are restored; LineBuffers and consoles hold exactly the texts printed while they were the innermost target, in order, and no print() fails.", "quantifier": "every nested program, every behaviour of the objects, every initial content", "why_tests_cant": "all programs", "anchors": ["syncstream/mproc.py:LineBuffer.__enter__", "syncstream/mproc.py:LineBuffer.__exit__", "syncstream/mproc.py:_LineBuffer.write", "syncstream/base.py:redirect_stdout", "syncstream/base.py:redirect_stderr"]}
{"id": "C76", "title": "with LineProcMirror around printing code", "statement": "with mirror: (open, line-collecting, queue with room, not stopped) sends everything printed inside, nothing lost, doubled or reordered, every message with a line break in it, and then exactly one end signal: the exception that left the block, else close. If the stop signal arrives inside, every later print() raises StopIteration; if an unfinished line is held then, leaving the block raises StopIteration and sends no end signal, also when the error was caught inside the block (refutes the advice of stop_all_mirrors()); if nothing is held the end signal is sent, also when the error was not caught (refutes the warning there).", "quantifier": "every nested program, every reachable mirror, every moment of the stop signal between two calls", "why_tests_cant": "all programs and moments", "anchors": ["syncstream/mproc.py:LineProcMirror.__enter__", "syncstream/mproc.py:LineProcMirror.__exit__", "syncstream/mproc.py:LineProcMirror.close", "syncstream/mproc.py:LineProcBuffer.stop_all_mirrors"]}
{"id": "C77", "title": "with LineFileBuffer around printing code", "statement": "with buffer: adds everything printed inside to the log as write() would; a block that ends normally turns the unfinished line into a record; a block that raises adds one record with the exception and leaves the unfinished line unfinished, so that text printed before the exception is read after it (refutation); the buffer stays open and no other file changes.", "quantifier": "every nested program with encodable texts, every log without gaps of at most maxlen records", "why_tests_cant": "all programs and logs", "anchors": ["syncstream/file.py:LineFileBuffer.__enter__", "syncstream/file.py:LineFileBuffer.__exit__", "syncstream/file.py:LineFileBuffer.new_line", "syncstream/file.py:LineFileBuffer.send_exc"]}
{"id": "C78", "title": "with LineHostMirror around printing code", "statement": "with mirror: (server reachable, not stopped) posts what is printed inside and then exactly one end signal (the exception that left the block, else close). If the stop signal arrives inside, every later print() raises StopIteration; if an unfinished line is held then and the block does not end with StopIteration (e.g. it was caught), leaving raises StopIteration and sends nothing; otherwise the held line and the end signal are sent, among them the StopIteration error itself (refutes: the error is not sent back).", "quantifier": "every nested program, every server state, every mirror, every moment of the stop signal between two calls", "why_tests_cant": "all programs, states and moments", "anchors": ["syncstream/host.py:LineHostMirror.__enter__", "syncstream/host.py:LineHostMirror.__exit__", "syncstream/host.py:LineHostMirror.close", "syncstream/host.py:LineHostBuffer.stop_all_mirrors"]}
{"id": "C79", "title": "threads that close one LineProcMirror", "statement": "Whatever the threads call on one mirror and however they are interleaved: once some close() has returned the mirror is closed and stays closed; a mirror that became closed has sent an end signal before; at most one end signal per call of close(), send_eof() and send_error() is sent. Two calls of close() at the same time may both send an end signal, or one of them raises ValueError (refutes: 'only takes effects once. The second call will do nothing'), and wait() then returns before the other mirrors have ended.", "quantifier": "every number of threads, every list of calls, every state of the mirror, every schedule", "why_tests_cant": "all schedules", "anchors": ["syncstream/mproc.py:LineProcMirror.close", "syncstream/mproc.py:LineProcMirror.send_eof", "syncstream/mproc.py:LineProcMirror.clear", "syncstream/mproc.py:LineProcBuffer.wait"]}
{"id": "C80", "title": "an account of threads that share one LineProcMirror", "statement": "Every finished execution of threads sharing a mirror whose lock exists is a sequence of indivisible parts (closed or not, text held, text written, line ended, text dropped, mirror shut, message sent), each with its effect on queue and held text, such that every call consists of its parts in order and has the result that belongs to them; no execution gets stuck. Consequences that happen: a write() that returned its length can lose its text to a close(), lines can arrive after the end signal, write() can raise ValueError instead of OSError, an aggressive mirror drops text silently (refutes thread safety of write()).", "quantifier": "every number of threads, every list of calls except changes of settings, every reachable mirror with lock and unbounded queue, every schedule", "why_tests_cant": "all schedules", "anchors": ["syncstream/mproc.py:LineProcMirror.write", "syncstream/mproc.py:LineProcMirror.close", "syncstream/mproc.py:LineProcMirror.new_line", "syncstream/mproc.py:LineProcMirror.send_data", "syncstream/mproc.py:LineProcMirror.clear"]}
{"id": "C81", "title": "the number of mirrors when threads use a LineProcBuffer at the same time", "statement": "Whatever threads call on the main buffer and on mirrors and however they are interleaved: n_mirrors stays between its start (or zero) minus the messages that may be received and its start (or zero) plus the reads of mirror; while nobody receives it never falls and has risen when all mirrors have been handed out. It may rise by less than the number of reads: two threads reading mirror may count once, and wait() then returns while a handed-out mirror is open; a read of mirror during a receive() may undo a decrement, and wait() then never returns although all mirrors are closed (refutes the expectation that each read of mirror counts once, which the usage example relies on).", "quantifier": "every number of threads, every list of calls on the main buffer and any mirrors, every state, every schedule, every moment", "why_tests_cant": "all schedules", "anchors": ["syncstream/mproc.py:LineProcBuffer.mirror", "syncstream/mproc.py:LineProcBuffer.receive", "syncstream/mproc.py:LineProcBuffer.wait"]}
{"id": "C82", "title": "stop_all_mirrors() while threads and processes are working", "statement": "At the moment the stop flag is set, every thread may be anywhere in its work. From then on, while nobody resets the states or calls send_data(), each of these threads puts at most one more text into the queues, calls that begin later put none, and every write() that begins later on any mirror of the buffer raises. The one text more does occur: it arrives after stop_all_mirrors() has returned.", "quantifier": "every number of threads, every list of calls on the main buffer and any mirrors, every state, every schedule before and after the stop", "why_tests_cant": "all schedules", "anchors": ["syncstream/mproc.py:LineProcBuffer.stop_all_mirrors", "syncstream/mproc.py:LineProcMirror.__write", "syncstream/mproc.py:LineProcMirror.write"]}
{"id": "C83", "title": "processes with the same tmp_id on one log", "statement": "Processes log to one path, each with any tmp_id (the default is the same for all), with any calls in any interleaving. Every finished execution has an account by indivisible steps on the records and on the temporary files, with the results of all calls. The complete lines of each write, exceptions and clear() reach the records in one piece each, in the order of the calls of their process; no execution gets stuck. Only unfinished text depends on the others: what is found in a temporary file consists of whole remainders written under the same tmp_id, perhaps after the text that was there at first; such text may be lost, logged twice, put before another process's line, or new_line() may add an empty line (refutes for conflicting ids what C39 shows for distinct ones).", "quantifier": "every number of processes, every assignment of identifiers, every list of calls with encodable texts, every log of at most maxlen records, every schedule", "why_tests_cant": "all schedules", "anchors": ["syncstream/file.py:LineFileBuffer.__init__", "syncstream/file.py:LineFileBuffer.write", "syncstream/file.py:LineFileBuffer.new_line", "syncstream/file.py:LineFileBuffer.clear", "syncstream/file.py:LineFileBuffer.read"]}
{"id": "C84", "title": "exported classes used as classes", "statement": "The classes of file.py and host.py are exported as lazy attributes. Calls and attributes of an exported name work and are those of the class, at any time. But a class statement with an exported name among its bases either raises or makes an object that is no class: calling it, every attribute of it, isinstance() with it and inheriting from it raise at any later time; and isinstance() with an exported name is never true. (Refutes 'Users could inherit this method and override it' of parse_lines for the exported name.) The class read from the package after loading can be inherited from.", "quantifier": "every program of package uses, class statements, calls, attribute accesses and isinstance(), every environment of modules", "why_tests_cant": "all programs", "anchors": ["syncstream/utils.py:_LazyAttribute.__init__", "syncstream/utils.py:_LazyAttribute.__call__", "syncstream/utils.py:_LazyAttribute.__getattribute__", "syncstream/file.py:LineFileBuffer.parse_lines"]}
{"id": "C85", "title": "importing the package with any choice of installed dependencies", "statement": "Whichever of fasteners, urllib3, packaging, flask can be found, importing the package raises nothing, runs no code of file.py, webtools.py and host.py and changes no other entry of sys.modules; LineFileBuffer is None exactly if fasteners is missing, the three names of host.py are None exactly if one of the other three is missing, and otherwise they are lazy attributes for their names. A dependency that is imported but has no __spec__ makes the import of the whole package fail (refutes that dependencies are optional).", "quantifier": "every choice of installed dependencies, every state of sys.modules in which the three modules are not imported", "why_tests_cant": "all environments", "anchors": ["syncstream/utils.py:lazy_import", "syncstream/utils.py:get_lazy_attribute", "syncstream/utils.py:is_module_invalid"]}
{"id": "C86", "title": "an account of threads that share one LineHostMirror", "statement": "Threads share a mirror whose lock exists, other clients use the service at the same time, and any request may fail, be refused or lose its answer. Every finished execution is a sequence of indivisible parts (mirror shut or not, text held, service asked whether to stop, text written and perhaps sent, line ended, text dropped, mirror shut, request), each with its effect on the held text; the requests among them are served in this order; between the question whether to stop and the write that follows nobody else touches the mirror; every call consists of its parts in order and has the result that belongs to them; no execution gets stuck. Without clear() and close(), the texts taken by the service and the text held are what was written, in this order. What happens besides: a write() that returned its length can lose its text to a close(), lines can be sent after the end signal, write() can raise ValueError instead of OSError, an aggressive mirror drops text silently (refutes thread safety of write()).", "quantifier": "every number of threads, every list of calls and requests of others (the attribute aggressive keeps its value), every mirror with lock, every state of the service, every sequence of faults, every schedule", "why_tests_cant": "all schedules and faults", "anchors": ["syncstream/host.py:LineHostMirror.write", "syncstream/host.py:LineHostMirror.close", "syncstream/host.py:LineHostMirror.new_line", "syncstream/host.py:LineHostMirror.send_data", "syncstream/host.py:LineHostMirror.clear"]}
{"id": "C87", "title": "connections of LineHostMirror and LineHostReader: nothing stays open that should not", "statement": "Pools of connections, responses and finalizers are visible. Whatever threads, mirrors and readers do, in any interleaving and with any faults: every response is, in this order and once each, received, read (unless it answers a message that was taken), released and closed, in the pool that it came from, and when the threads are done this is complete for every response; a pool that is stored in no object serves exactly one request and is then cleared, whatever happened; a stored pool is created once, stored in one object, and used only afterwards, and the pool of a mirror is cleared only when the mirror goes; results, service, mirrors and locks are as if requests were single commands (and conversely). For a mirror used by one thread: no request, no pool; otherwise one pool for all requests, one finalizer, which clears it at the end and not before (close() does not). For a reader: the exact log of any sequence of calls, __enter__ and __exit__. Refuted: a reader after its context uses no temporary pool but the old one, which is not cleared again; re-entering has an effect, since leaving the inner context clears the pool of the outer one; with threads the finalizer of a pool can get lost.", "quantifier": "every number of threads, mirrors, readers and calls, every state of the service, every sequence of faults, every schedule", "why_tests_cant": "all schedules and faults; resources are not visible in results", "anchors": ["syncstream/host.py:LineHostMirror.__http", "syncstream/host.py:LineHostReader.__enter__", "syncstream/host.py:LineHostReader.__exit__", "syncstream/webtools.py:SafePoolManager", "syncstream/webtools.py:clean_http_manager"]}
{"id": "C88", "title": "exceptions from outside in the middle of a call", "statement": "Before any command of any method of LineBuffer, LineFileBuffer, LineProcMirror, LineProcBuffer, LineHostMirror, LineHostReader and LineHostBuffer (with the view functions of its service) an exception of any kind may come (KeyboardInterrupt, MemoryError, full disk, broken connection). The call then raises exactly this exception, releases exactly the locks that it took, and leaves the data as after some number of its commands; every such number can occur, and a call in which none comes is as usual. Threads with such calls on LineBuffer or host objects, threads of the server, and processes with such calls on LineFileBuffer, never get stuck. LineFileBuffer.write leaves on disk what C40 says for a crash. But: wait() interrupted after the last end signal and called again never returns; a line interrupted while it is sent is sent again with the next one or changes it; after an error while records are renamed read() shows none of them until the next line.", "quantifier": "every call, every state of data and locks, every sequence of exceptions, every number of threads and processes, every schedule", "why_tests_cant": "exceptions at every point of every call", "anchors": ["syncstream/mproc.py:LineBuffer.write", "syncstream/mproc.py:LineBuffer.read", "syncstream/mproc.py:LineProcMirror.write", "syncstream/mproc.py:LineProcBuffer.wait", "syncstream/file.py:LineFileBuffer.write", "syncstream/host.py:LineHostMirror.write"]}
{"id": "C89", "title": "what an exception from outside leaves of a LineBuffer", "statement": "write(): the records are as before or contain all complete lines, and the unfinished text is the old one (with the position at its end or start), removed, or the new one. new_line(): nothing or as write of a line break. read(): the records may be rotated and one may be missing (two if the buffer is full and there is unfinished text). clear() and close(): the text goes before the records, closing comes last. After any calls, any of them left by exceptions, also by several threads: the locks are free, there are at most maxlen records without line breaks, an open buffer can be read, which changes nothing, and clear() makes it as new; a closed one raises OSError. But an interrupted read() can change the order or lose a record, an interrupted write() can show its line twice or mix its text into the next line, and an interrupted close() can leave an empty open buffer.", "quantifier": "every reachable buffer, every call, every sequence of exceptions, every list of calls and number of threads, every schedule", "why_tests_cant": "exceptions at every point of every call", "anchors": ["syncstream/mproc.py:_LineBuffer.__write", "syncstream/mproc.py:_LineBuffer.read", "syncstream/mproc.py:_LineBuffer.__read_n", "syncstream/mproc.py:_LineBuffer.clear", "syncstream/mproc.py:_LineBuffer.close", "syncstream/mproc.py:_LineBuffer.new_line"]}
{"id": "C90", "title": "processes that print inside 'with mirror:' while the main process waits", "statement": "Each of several processes runs any code inside 'with mirror:' (print() to stdout and stderr, nested redirections, try/except, exceptions), the main process is in wait(). In every interleaving: when wait() has returned, everything printed inside the blocks has been received, in order for each process, an unfinished line is ended, then comes the signal for how the block ended (end, or the exception that left it); the queue is empty and no mirror is counted any more. If every text is without line break or ends with one (every print() whose arguments have no line breaks), the records are whole lines of single processes and the exceptions, each process in its order. A process whose block was left has its own streams back, ends as its block did, and its mirror is closed. No execution gets stuck or goes on for ever. Refuted for other texts: one process prints 'a\\nb', another one 'c', and 'bc' becomes one record.", "quantifier": "every number of processes, every code, every reachable system with new mirrors, every schedule", "why_tests_cant": "all programs and schedules", "anchors": ["syncstream/mproc.py:LineProcMirror.__enter__", "syncstream/mproc.py:LineProcMirror.__exit__", "syncstream/mproc.py:LineProcMirror.write", "syncstream/mproc.py:LineProcMirror.close", "syncstream/mproc.py:LineProcBuffer.wait", "syncstream/mproc.py:LineProcBuffer.receive"]}
{"id": "C91", "title": "threads of one process that print", "statement": "sys.stdout and sys.stderr are shared by the threads of a process; every access to an attribute by __enter__, __exit__ and print() and every step of LineBuffer.write() may be separated by steps of other threads. In every interleaving there is one order of everything the threads did that explains all answers and the contents of all streams; no text is lost or torn. If one thread only uses 'with', its texts go where they go when it is alone and both streams are as before in the end; what other threads print meanwhile goes to the old streams or to a target of that thread. Threads without 'with' that print inside one 'with buffer:' put all their texts into the buffer, each thread's in order, and nothing else changes; texts made of complete lines give whole records. No execution gets stuck or goes on for ever. But the line of one print() need not stay whole; threads with a LineBuffer each may write into each other's buffer and leave sys.stdout redirected; threads that use the same LineBuffer in a 'with' each may leave sys.stdout None.", "quantifier": "every number of threads, every code, every set of LineBuffers and other streams, every schedule", "why_tests_cant": "all programs and schedules", "anchors": ["syncstream/mproc.py:LineBuffer.__enter__", "syncstream/mproc.py:LineBuffer.__exit__", "syncstream/mproc.py:LineBuffer.write"]}
{"id": "C92", "title": "clients that print inside 'with mirror:', and readers of the service", "statement": "Each of several threads or processes runs any code inside 'with mirror:' with a LineHostMirror of its own (print() to stdout and stderr, nested redirections, try/except, exceptions); others use LineHostReaders; one server, not stopped. At any moment of any interleaving the server holds the log of the messages that arrived so far, each one completely, in some order, those of each client being the first ones of what it should send. A client whose block was left has sent everything, the end signal or the exception included, has its streams back and a closed mirror, and ended as its block did. Readers see the server at some moments, later and later. No execution gets stuck or goes on for ever. If no mirror is aggressive and every text is without line break or ends with one, the records, at any moment and for every reader, are whole lines of single clients and the exceptions, those of each client in order. Refuted for texts with a line break inside and for aggressive mirrors, whose pieces of lines mix.", "quantifier": "every number of clients and readers, every code, every reachable server, every schedule", "why_tests_cant": "all programs and schedules", "anchors": ["syncstream/host.py:LineHostMirror.__enter__", "syncstream/host.py:LineHostMirror.__exit__", "syncstream/host.py:LineHostMirror.write", "syncstream/host.py:LineHostMirror.close", "syncstream/host.py:LineHostReader.read", "syncstream/host.py:LineHostBuffer.serve"]}
{"id": "C93", "title": "what LineHostReader returns while mirrors write", "statement": "While any number of mirrors write and readers read, without faults, every call of every reader returns what it would return alone on a server that has got the first q messages of one common order, each completely, and q only grows from call to call of a reader: no call sees half of a message. read(size) is then the last records of the log of these messages and its unfinished line, len() their number (or one more as in C09), closed is false; the finished records of a later answer's log are those of the earlier one and new ones after them.", "quantifier": "every number of mirrors and readers, every list of their calls (without clear), every reachable server, every schedule", "why_tests_cant": "all schedules", "anchors": ["syncstream/host.py:LineHostReader.read", "syncstream/host.py:LineHostReader.__len__", "syncstream/host.py:LineHostReader.closed", "syncstream/host.py:LineHostBuffer.serve", "syncstream/host.py:LineHostMirror.write"]}
{"id": "C94", "title": "processes that print inside 'with LineFileBuffer:' on one log, and readers", "statement": "Each of several processes runs any code inside 'with buffer:' with a LineFileBuffer of its own on one common path (print() to stdout and stderr, nested redirections, try/except, exceptions), others only look at the log. If the tmp_ids differ, then at any moment of any interleaving at which no process holds the lock of the records, the record files are the last maxlen of the old records and those that arrived so far; each of these is a whole line, or an exception, of a single process, and those of each process are the first ones of what its code should add. A process whose block was left has added everything, left the unfinished line that it should, has its streams back, and ended as its block did. Readers see the last records of some moments, later and later. With any tmp_ids and any calls next to the printing there is an account by steps as in C83. No execution gets stuck or goes on for ever. Refuted for two processes with the default tmp_id: pieces of their lines mix, or are logged twice.", "quantifier": "every number of processes, every code, every directory whose records have no gap, every schedule", "why_tests_cant": "all programs and schedules", "anchors": ["syncstream/file.py:LineFileBuffer.__enter__", "syncstream/file.py:LineFileBuffer.__exit__", "syncstream/file.py:LineFileBuffer.write", "syncstream/file.py:LineFileBuffer.new_line", "syncstream/file.py:LineFileBuffer.send_exc", "syncstream/file.py:LineFileBuffer.read", "syncstream/base.py:redirect_stdout", "syncstream/base.py:redirect_stderr"]}
{"id": "C95", "title": "threads that use lazy modules", "statement": "Any number of threads access attributes of lazily imported modules, call force_load() and use lazy attributes; every lookup, lock operation and statement of a module's code may be separated by steps of other threads. In every execution the code of each module is started at most once. Whoever gets an (unprotected) attribute, directly or by a lazy attribute, gets it from a module whose code has ended (the whole module, or what was defined before its code raised), never from one that another thread is still loading; all threads get the same object. A thread that once got an attribute of a module gets exactly the right answers from it ever after. Lazy attributes and the names of the parent package that replace them hold the right objects. The only exceptions are AttributeError, ImportError of 'from module import name', and those of the code of modules; for modules that use only earlier ones, 2n+3 nested calls suffice.", "quantifier": "every code of modules, dependencies, number of threads, list of accesses, every schedule", "why_tests_cant": "all schedules of threads", "anchors": ["syncstream/utils.py:_LazyModule.__getattribute__", "syncstream/utils.py:_LazyModule.load_deps", "syncstream/utils.py:_LazyModule.force_load", "syncstream/utils.py:_LazyAttribute.load_module"]}
{"id": "C96", "title": "threads that load lazy modules never wait for each other for ever", "statement": "If every module uses only itself and earlier modules, as file, webtools and host of this package do, no execution of any threads gets stuck, none goes on for ever, and in the end all locks are free. Refuted for modules that use each other: two threads that load one each wait for each other for ever, although one thread alone can load both.", "quantifier": "every layered set of modules, every number of threads, every schedule", "why_tests_cant": "all schedules of threads", "anchors": ["syncstream/utils.py:_LazyModule.__getattribute__", "syncstream/utils.py:_LazyModule.load_deps"]}
{"id": "C97", "title": "races between threads that load lazy modules", "statement": "What a module whose code has ended contains never changes again, and if its class then is importlib's _LazyModule, it stays that. Refuted, each with an execution of two threads on file, webtools and host of this package: an attribute that a module has can be accessed (a thread that comes while another one loads the module gets AttributeError for load_deps, later it gets the attribute); 'once the module is actually loaded, the class of the module will be replaced by the actual module class' (it can stay importlib's lazy class for ever); host can be loaded (while another thread loads webtools, the code of host raises ImportError and is never run again, its names are lost for this process).", "quantifier": "every execution for the first part; witnesses for the others", "why_tests_cant": "depends on the schedule of threads", "anchors": ["syncstream/utils.py:_LazyModule.__getattribute__", "syncstream/utils.py:_LazyModule.load_deps", "syncstream/utils.py:_LazyAttribute.load_module"]}
{"id": "C98", "title": "processes that are killed while they share a log", "statement": "Several processes use LineFileBuffers of their own (different tmp_ids) on one path; any of them may be killed between any two steps (also while it holds a lock, between two os.rename, or in the middle of a text); the operating system then releases its locks. At any time there is one history of records: the old ones, and what the processes wrote, each process a beginning of what its calls write, at most the last record of it incomplete. Every record file is a record of this history, none is there twice. A process that ended was not disturbed: it wrote all of its records, has its own unfinished line, and its calls returned what they should; read() returned records of the history. If no call completes more than one line, the records are in order, and each killed process costs at most one of the last maxlen records. Some living process can always go on, until all have ended and every lock is free. Refuted: read() returns all records that are there (a process killed between os.rename and open hides them); records are in order when a call completes several lines.", "quantifier": "every number of processes, every list of calls (without clear and close), every log without gaps, every interleaving and every set and moment of kills", "why_tests_cant": "depends on the step at which a process is killed and on the schedule", "anchors": ["syncstream/file.py:LineFileBuffer.write", "syncstream/file.py:LineFileBuffer.__update_records", "syncstream/file.py:LineFileBuffer.read", "syncstream/file.py:LineFileBuffer.new_line", "syncstream/file.py:LineFileBuffer.send_exc", "syncstream/file.py:LineFileBuffer.__len__"]}
{"id": "C99", "title": "processes that are killed while they use mirrors", "statement": "Several processes write to mirrors of one LineProcBuffer (one mirror each), the main process is in wait(); any of them may be killed between any two steps, the locks that it had stay acquired. At any time nothing that was sent is lost, doubled or changed: each process sent a beginning of its messages, in order, all of them if it ended; wait(), if it returned, recorded exactly what it took out of the queue. From a killed process nothing more comes; the others are not disturbed: if no process was killed while it held the state lock (three steps of write(), a request for it under way included), every other process can finish its work. If each process ends its stream once: when a process was killed before it had sent everything, wait() never returns; when the killed ones had sent everything, it returns, with no mirror counted and an empty queue. If a process was killed while it held the state lock, no write() of any mirror, no stop_all_mirrors() and no reset_states() ever succeeds again. Refuted: wait() returns after processes were killed; force_stop(), wait(), reset_states() after a kill, as the documentation of force_stop() recommends, makes the buffer usable again (reset_states() may never return).", "quantifier": "every number of processes, every list of calls on the mirrors, every reachable system, every interleaving and every set and moment of kills", "why_tests_cant": "depends on the step at which a process is killed and on the schedule", "anchors": ["syncstream/mproc.py:LineProcMirror.write", "syncstream/mproc.py:LineProcMirror.close", "syncstream/mproc.py:LineProcBuffer.wait", "syncstream/mproc.py:LineProcBuffer.receive", "syncstream/mproc.py:LineProcBuffer.reset_states", "syncstream/mproc.py:LineProcBuffer.stop_all_mirrors", "syncstream/mproc.py:LineProcBuffer.force_stop"]}
{"id": "C100", "title": "clients that are killed while they use the host service", "statement": "Several clients, each with a LineHostMirror of its own, and readers use one service; any client may be killed between any two steps. At any time the server holds the log of complete messages: those of each client are a beginning of what its calls should send, in order, all of them if it ended. The calls of clients that ended returned what they return without kills; readers saw this log grow. Nobody is ever blocked by a killed client: every client that has not ended can go on at any time, by itself; from a killed client nothing more comes. If clients print whole lines into mirrors that are not aggressive, every record is a whole line of one client, also when clients are killed. Refuted: a record holds text of one client only (an unfinished line of a killed client is continued by the next text of another one); text that write() took arrives (what is no line yet is lost with the client).", "quantifier": "every number of clients and readers, every list of calls, every log on the server, every interleaving and every set and moment of kills", "why_tests_cant": "depends on the step at which a client is killed and on the schedule", "anchors": ["syncstream/host.py:LineHostMirror.write", "syncstream/host.py:LineHostMirror.__write", "syncstream/host.py:LineHostMirror.send_data", "syncstream/host.py:LineHostMirror.close", "syncstream/host.py:LineHostReader.read", "syncstream/host.py:LineHostBuffer.serve"]}
{"id": "C101", "title": "force_stop(), wait() and reset_states() after processes were killed", "statement": "Processes use the mirrors of one LineProcBuffer, the main process is in wait(), and any of the other processes are killed at any steps. Whenever another thread of the main process then calls force_stop(), it returns, and wait() returns without any help of the other processes. It has recorded exactly what was sent up to then, in order (if all the streams had ended before: up to the last end). The count of mirrors is not positive, the locks of the main process are free. If no process was killed inside of the state lock, reset_states() then succeeds: a new queue, a state that is not closed, the records kept; if one was, reset_states() never returns. Refuted: the queue is empty afterwards (force_stop() after the streams ended leaves its marker in the queue).", "quantifier": "every number of processes, every list of calls on the mirrors, every reachable system, every interleaving, every set and moment of kills, every moment of force_stop()", "why_tests_cant": "depends on the step at which a process is killed and on the schedule", "anchors": ["syncstream/mproc.py:LineProcBuffer.force_stop", "syncstream/mproc.py:LineProcBuffer.wait", "syncstream/mproc.py:LineProcBuffer.receive", "syncstream/mproc.py:LineProcBuffer.reset_states"]}
{"id": "C102", "title": "the HTTP headers of the clients", "statement": "Every request of a LineHostMirror or LineHostReader carries exactly the default headers (Accept and User-Agent; with a body also Content-Type: application/json), whatever a user did before with the mappings that headers, headers_get and headers_post return (setting, deleting, clearing, new_child(), copy(), in any order and number). A mapping shows the defaults until something is done with it, whatever is done with the others; what is set in it is found in it. Refuted: the defaults cannot be changed from outside (maps and parents of a mapping give the stored dicts, and a change of the headers for reading changes those for sending); a default header can be removed from a mapping.", "quantifier": "every sequence of operations on every number of mappings and requests", "why_tests_cant": "depends on aliasing after arbitrary sequences of operations; no test looks at the headers", "anchors": ["syncstream/host.py:LineHostMirror.headers", "syncstream/host.py:LineHostMirror.headers_get", "syncstream/host.py:LineHostReader.headers", "syncstream/host.py:LineHostReader.headers_post", "syncstream/host.py:LineHostMirror.__init__", "syncstream/host.py:LineHostReader.__init__"]}
{"id": "C103", "title": "what an exception from outside leaves of a LineHostBuffer", "statement": "An exception of any kind comes before any command of a view function of the service or of a method of LineHostBuffer. POST of a text leaves what write() of it may leave (C89); POST of an error or warning leaves nothing, the current line ended as by write of a line break, or all; POST of close as new_line(); GET as read(); DELETE as clear(); the states are untouched. GET on the states changes nothing, setting the flag and stop_all_mirrors() happen at once or not at all, and reset_states() (DELETE on the states) leaves the old states, none, or the flag alone. After any requests and calls, any of them left by exceptions, also in several threads: no lock is held, there are at most maxlen records, those that are texts are without line breaks, the flag is a bool if it is there, DELETE makes an open buffer as new, GET answers at most maxlen items and changes nothing, a closed buffer answers OSError, DELETE on the states works. But: a request that failed may have been stored, so that sending it again stores it twice; a message may be lost though the current line was ended; after an interrupted reset_states() GET of 'closed' answers null.", "quantifier": "every server state after any requests, every request and call, every sequence of exceptions, every number of threads, every schedule", "why_tests_cant": "exceptions at every point of every request", "anchors": ["syncstream/host.py:LineHostBuffer.serve", "syncstream/host.py:LineHostBuffer.read_serialized", "syncstream/host.py:LineHostBuffer.stop_all_mirrors", "syncstream/host.py:LineHostBuffer.reset_states"]}
{"id": "C104", "title": "threads that call lazy_import", "statement": "Any number of threads call lazy_import with any arguments; every look at sys.modules and every change of it may be separated by steps of other threads. No code of modules is run, existing modules stay as they are, each new one has the name its thread asked for and was made by a thread that asks for it, and no thread makes two of one name. What a call returns has the right name. When all calls have ended every new module is lazy or a placeholder. A module that was registered before stays registered and all calls for it give it. If one thread only asks for a name, its successful calls all give the module that is registered, whatever the others import. If everything that is asked for can be found, no call fails. One thread alone does what C61 and C62 say. Refuted for two threads: they get the same module (they may get two; using the one that is not registered raises ValueError after the code of the module was run, and it is run again for the other one); required=False never fails for a missing module (ModuleReplaceError or ValueError); a module that lazy_import returned can be used (another thread may not have made it lazy yet: AttributeError).", "quantifier": "every finder, arguments, initial sys.modules (whose modules are registered under their names), number of threads and calls, every schedule", "why_tests_cant": "all schedules of threads", "anchors": ["syncstream/utils.py:_LazyImporter.lazy_import", "syncstream/utils.py:_LazyImporter.create_module_placeholder", "syncstream/utils.py:_LazyLoader.exec_module"]}
{"id": "C105", "title": "lazy_import of modules in packages", "statement": "lazy_import of a name with dots, or with such a dependency, runs the code of packages that contain the module or the dependency and no other code, and replaces nothing that is registered; nothing is run if these packages are registered; if none is, all are run from the outside and the module is not. If the package is loaded, the result is as for names without dots: lazy if found, else a placeholder or ModuleNotFoundError. If the package is itself lazy, a placeholder, no package, or does not exist, ModuleNotFoundError is raised, also with required=False, also if it is the package of a dependency, and an ordinary import fails in the same way; after the first use of the lazy package its modules can be imported lazily. In every sequence of lazy imports, uses and ordinary imports the code of a module that does not raise is run once at most, if no lazy import names a dependency inside the module it imports. Refuted: without this condition (the code is run twice); required=False raises no ModuleNotFoundError; lazy_import runs no code; after a lazy import of a package its modules can be imported in the ordinary way.", "quantifier": "every set of packages and modules on disk, every name, dependencies and sys.modules, every sequence of operations", "why_tests_cant": "depends on which packages exist, are registered, lazy or loaded; tests use names without packages", "anchors": ["syncstream/utils.py:_LazyImporter.lazy_import", "syncstream/utils.py:_LazyImporter.check_is_dep_missing", "syncstream/utils.py:_LazyModule.__getattribute__"]}
{"id": "C106", "title": "what an exception from outside leaves of a LineProcMirror and a LineProcBuffer", "statement": "An exception of any kind comes before any command of a method. In every case no lock is held afterwards. write() of a mirror leaves nothing done; or, aggressive, the text sent; or the text held; or, if it ends a line, the held text sent once, and still held, held with the position at its beginning, or removed. new_line(), send_eof(), send_error(), send_warning() leave this or send their message after the current line; close() closes the mirror only after the end signal is sent; clear() leaves the queue alone. A mirror that has to stop sends and changes nothing if text would be sent. receive() leaves the message in the queue and all as it was, or takes it and does a part of what it means; wait() handles any number of messages completely and then leaves what receive() leaves. mirror, stop_all_mirrors(), reset_states(), force_stop() leave one of the states between their commands (open mirrors: reset_states() changes nothing); read(), clear(), new_line(), close() of the buffer as in C89. After any calls, also in several threads and processes, any of them left by exceptions: at most maxlen records, those that are texts without line breaks, an open buffer can be cleared and read, an open mirror can be cleared, closed ones say so. Refuted: a message is not lost (it may be taken and not recorded); close() may be called again after it was left (two end signals, wait() returns before another mirror is closed); after clear() that was left the next text is sent as it is (it overwrites the beginning of the old one).", "quantifier": "every reachable or unreachable system with an open mirror or buffer, every call, every sequence of exceptions, every number of threads and processes, every schedule", "why_tests_cant": "exceptions at every point of every call", "anchors": ["syncstream/mproc.py:LineProcMirror.write", "syncstream/mproc.py:LineProcMirror.new_line", "syncstream/mproc.py:LineProcMirror.close", "syncstream/mproc.py:LineProcMirror.clear", "syncstream/mproc.py:LineProcMirror.send_eof", "syncstream/mproc.py:LineProcBuffer.receive", "syncstream/mproc.py:LineProcBuffer.wait", "syncstream/mproc.py:LineProcBuffer.mirror", "syncstream/mproc.py:LineProcBuffer.reset_states"]}
{"id": "C107", "title": "setting the timeout of a mirror while other threads use it", "statement": "A mirror keeps its timeout in two attributes, __timeout and __block; the setter stores one after the other and every queue.put() is given both, without a lock. With one thread every call sees the timeout set last and a put waits exactly if it is None. If only one of several threads sets it, this holds of the calls of that thread, and the attributes fit together when it has ended. With any threads each argument of a put belongs to some timeout that was set; if None is never set no put waits, and if nothing but None is set every put waits. Refuted: the attributes fit together when no call is going on (two setters may leave either mixture for ever: without a timeout a put to a full queue then fails at once, with one it waits for it, with a negative one it raises ValueError); a put that runs beside one setter uses a timeout and the block that belongs to it; a setter that is interrupted sets nothing.", "quantifier": "every initial timeout, number of threads, sequence of calls, every schedule of loads and stores", "why_tests_cant": "a race of two stores that no test can provoke reliably", "anchors": ["syncstream/mproc.py:LineProcMirror.timeout", "syncstream/mproc.py:LineProcMirror.__init__", "syncstream/mproc.py:LineProcMirror.send_data", "syncstream/mproc.py:LineProcMirror.send_eof"]}
{"id": "C108", "title": "what an exception from outside leaves of a LineHostMirror and its server", "statement": "An exception of any kind comes before any command of a method of a mirror or of the reader, and any request may fail on the network too (refused, no connection, answer lost). In every case the call ends and no lock is held. write() of an open mirror leaves nothing done; or, aggressive, the text handled once by the server; or the text held; or, if it ends a line, the held text handled once, and still held, held with the position at its beginning, or removed. new_line() leaves this of a line break; send_eof(), send_error(), send_warning() moreover make the server handle their message once, after the current line; close() closes the mirror only after the server has handled the end signal; clear() sends nothing; the other methods change nothing. If the stop signal is set, whatever goes wrong, write(), and every other method that would send text first (except for the error StopIteration, which is sent without asking), change nothing and send nothing. clear() makes an empty mirror out of whatever is left of an open one. The one request of a method of the reader is handled once or not at all. Refuted: a text is sent once (exception after the request: the next write() sends it again); a write() sends only text that was not sent (exception between seek(0) and truncate(0): the rest of the old text follows the new one).", "quantifier": "every server state, open mirror, held text, call, every sequence of exceptions and of network failures that say they are errors", "why_tests_cant": "exceptions at every point of every call, with every failure of the network", "anchors": ["syncstream/host.py:LineHostMirror.write", "syncstream/host.py:LineHostMirror.new_line", "syncstream/host.py:LineHostMirror.close", "syncstream/host.py:LineHostMirror.clear", "syncstream/host.py:LineHostMirror.send_eof", "syncstream/host.py:LineHostMirror.send_error", "syncstream/host.py:LineHostMirror.send_warning", "syncstream/host.py:LineHostReader.read", "syncstream/host.py:LineHostReader.clear"]}
{"id": "C109", "title": "what the death of the process or an exception from outside leaves of a LineFileBuffer", "statement": "The process dies at any point of a call of an open LineFileBuffer, or an exception from outside leaves the call at any point; in the second case the call ends and its locks are released. new_line() with no unfinished line changes no file; otherwise the records are as C40 says of the unfinished line, files of others are unchanged, and the temporary file is unchanged unless the line is recorded completely. send_exc() leaves the records as C40 says of the record of the exception, and no other file changes. close() leaves what new_line() or send_exc() leaves, and the buffer is closed only when the unfinished line, or the exception, is recorded. clear(), in any state, leaves every file unchanged or removed; it removes only files <name>-<anything>.log and, after all of them, the temporary file. The other methods change nothing, and neither does a method other than clear() of a closed buffer. Refuted: what an interrupted clear() hides stays hidden (without the newest record read() finds nothing, but the older records come back when the next line is written).", "quantifier": "every directory, records, unfinished line, exception, every point of the call, every sequence of exceptions", "why_tests_cant": "the process has to die, or an exception has to come, at every point of the call", "anchors": ["syncstream/file.py:LineFileBuffer.new_line", "syncstream/file.py:LineFileBuffer.send_exc", "syncstream/file.py:LineFileBuffer.close", "syncstream/file.py:LineFileBuffer.clear", "syncstream/file.py:LineFileBuffer.read", "syncstream/file.py:LineFileBuffer.__update_records"]}
{"id": "C110", "title": "force_stop() ends wait() whatever the other processes do meanwhile", "statement": "The main process is in wait(); any number of other processes and threads make any calls on any mirrors (also several on one mirror), force_stop() and stop_all_mirrors(). At any moment of any interleaving force_stop() returns at once, without a lock, and from then on wait() is never blocked and returns after a bounded number of its own steps, however the others go on, and also if some of them never make a step again (killed, whatever locks they hold). What it has recorded then does not depend on what the others do after force_stop(): it is what had arrived in the queue up to force_stop(), in order (or up to the end of the last stream, if that came before); what arrives later stays in the queue, in order. Refuted: this holds too if another thread is inside of receive() (it takes the marker and wait() is blocked for ever).", "quantifier": "every reachable system, every number of threads and processes, every list of calls, every schedule before and after force_stop(), every moment of force_stop()", "why_tests_cant": "depends on the schedule before and after force_stop(); a test sees a few", "anchors": ["syncstream/mproc.py:LineProcBuffer.force_stop", "syncstream/mproc.py:LineProcBuffer.wait", "syncstream/mproc.py:LineProcBuffer.receive", "syncstream/mproc.py:LineProcBuffer.stop_all_mirrors"]}
{"id": "C111", "title": "showing lazy modules, placeholders and lazy attributes loads nothing", "statement": "repr() and str() of a module object of lazy_import or of a lazy attribute change nothing in any state: no code of a module is run, no class and no attribute changes (a lazy module: if its __spec__ was not set to None). The text is <LazyModule name from \"origin\"> as long as the module is lazy, <ModulePlaceholder name> of a placeholder, at any time, and neither of a module that is loaded or being loaded; after an access that loads it a module never shows itself as lazy again, whatever is done. A lazy attribute shows itself as <LazyAttribute attr from \"name\"> with the same text at any later time, also after it was used. Refuted: with __spec__ set to None, showing a lazy module loads nothing (it runs its code).", "quantifier": "every environment, every state, every sequence of operations", "why_tests_cant": "a debugger or a log shows modules at any time, in any state", "anchors": ["syncstream/utils.py:_LazyModule.__repr__", "syncstream/utils.py:_LazyAttribute.__repr__", "syncstream/utils.py:_ModulePlaceholder.__repr__", "syncstream/utils.py:_LazyModule.__getattribute__"]}
{"id": "C112", "title": "from-imports of lazy modules and placeholders", "statement": "'from M import a' of a module object of lazy_import changes exactly what M.a changes (loads a lazy module) and gives the value of M.a; an exception of M.a comes out as it is, except for AttributeError: then the module registered as 'M.a' is given if there is one, else ImportError is raised; AttributeError never comes out. From a placeholder, at any later time, importing a name that it has not raises ImportError and changes nothing, and 'import *' binds nothing, changes nothing and raises nothing. 'from M import *' of a lazy module loads it; if it has no __all__ and nothing is raised, exactly the attributes that the module has afterwards and that do not begin with an underscore are bound; an exception other than AttributeError comes out; of a module whose code was started before, also if it raised, it changes nothing and raises nothing. Refuted: an exception of the code of the module always comes out of 'import *' (if it is an AttributeError it is lost, a part of the names is bound and the module is left half loaded); importing from a missing optional module always raises ImportError (not 'import *').", "quantifier": "every environment, every state, every name, every sequence of operations before", "why_tests_cant": "depends on what the code of the modules does and raises, and on what is registered", "anchors": ["syncstream/utils.py:_LazyModule.__getattribute__", "syncstream/utils.py:_ModulePlaceholder.__getattribute__", "syncstream/utils.py:_ModulePlaceholder.__all__"]}
