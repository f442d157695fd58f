{"id": "C01", "title": "Reported transferred bytes are the exact size of the union of the transferred ranges", "statement": "For a single-operation ticket, the `transferred` value reported for a ticket equals the number of distinct byte offsets covered by at least one of the ranges transferred so far (finished plus ongoing), whatever the order, overlap or adjacency of these ranges.", "quantifier": "every finite sequence of well formed ranges (start <= end), in every order", "why_tests_cant": "a test tries a handful of range sequences; the merge loop has overlap/adjacency/containment cases that depend on the whole sequence", "anchors": ["ovirt_imageio/_internal/measure.py:Range", "ovirt_imageio/_internal/measure.py:RangeList", "ovirt_imageio/_internal/measure.py:_merged", "ovirt_imageio/_internal/auth.py:Ticket.transferred"]}
{"id": "C02", "title": "Transfer accounting is order independent and never decreases", "statement": "The set of ranges kept by a ticket does not depend on the order in which concurrent transfers finish; it is always a sorted list of disjoint non touching ranges; adding a range never lowers the reported byte count.", "quantifier": "every permutation of every finite sequence of ranges", "why_tests_cant": "the number of orders is factorial; concurrency picks any of them", "anchors": ["ovirt_imageio/_internal/measure.py:RangeList.add", "ovirt_imageio/_internal/measure.py:RangeList.update", "ovirt_imageio/_internal/measure.py:_merged"]}
{"id": "C03", "title": "Authorization is exact", "statement": "A request for ticket T and operation O is authorized if and only if T was added and not removed since, is not canceled, has not expired at the time of the request, and O is listed in the ticket ops (write also grants read). In every other case it fails with an authorization error.", "quantifier": "every history of add/extend/touch/cancel/remove/authorize calls on any number of tickets and every clock", "why_tests_cant": "histories are unbounded and mix time with several tickets", "anchors": ["ovirt_imageio/_internal/auth.py:Authorizer.authorize", "ovirt_imageio/_internal/auth.py:Ticket.may", "ovirt_imageio/_internal/auth.py:Authorizer.add", "ovirt_imageio/_internal/auth.py:Authorizer.remove"]}
{"id": "C04", "title": "No operation starts on a canceled ticket, and cancellation is permanent", "statement": "Once cancellation of a ticket has begun, no operation starts to do I/O on this ticket and no connection context can be attached to it, and no later event makes the ticket usable again.", "quantifier": "every interleaving of any number of connection threads running operations and any number of canceling threads", "why_tests_cant": "depends on the thread schedule", "anchors": ["ovirt_imageio/_internal/auth.py:Ticket.run", "ovirt_imageio/_internal/auth.py:Ticket._add_operation", "ovirt_imageio/_internal/auth.py:Ticket.add_context", "ovirt_imageio/_internal/auth.py:Ticket.cancel"]}
{"id": "C05", "title": "A successful ticket removal means the storage is released", "statement": "When removing a ticket reports success (after waiting or immediately), no operation of that ticket is running, every backend that was opened for it has been closed, and none of them is used again.", "quantifier": "every interleaving of connection threads, cancel calls with or without timeout, connection closes", "why_tests_cant": "depends on the thread schedule", "anchors": ["ovirt_imageio/_internal/auth.py:Ticket.cancel", "ovirt_imageio/_internal/auth.py:Ticket._remove_operation", "ovirt_imageio/_internal/auth.py:Ticket.remove_context", "ovirt_imageio/_internal/auth.py:Authorizer.remove", "ovirt_imageio/_internal/handlers/tickets.py:Handler.delete"]}
{"id": "C06", "title": "No lost wakeup: a waiting removal is released when the last operation ends", "statement": "If a removal is waiting for ongoing operations and all of them end, the removal is always able to proceed: there is no reachable state where the ticket is canceled, has no ongoing operation, and a waiter is still blocked.", "quantifier": "every interleaving", "why_tests_cant": "a lost wakeup shows only in rare schedules", "anchors": ["ovirt_imageio/_internal/auth.py:Ticket.cancel", "ovirt_imageio/_internal/auth.py:Ticket._remove_operation"]}
{"id": "C07", "title": "A ticket in use does not expire before its timeout since the last activity", "statement": "After an operation ends on a live ticket, or the ticket is extended, the expiry time is the current time plus the timeout, so the ticket is authorized at any time strictly before this and rejected at or after it if nothing else happens. Touching never makes a ticket expire earlier while time moves forward.", "quantifier": "every non decreasing clock and every history of touch, extend and operation events", "why_tests_cant": "unbounded histories over time", "anchors": ["ovirt_imageio/_internal/auth.py:Ticket.touch", "ovirt_imageio/_internal/auth.py:Ticket.extend", "ovirt_imageio/_internal/auth.py:Ticket._remove_operation"]}
{"id": "C08", "title": "GET sends exactly the requested bytes of the image", "statement": "When a read operation for [offset, offset+size) succeeds, the bytes written to the client are exactly the image bytes of this range, in order, no more and no less, for any block size, buffer size, alignment of offset and size, and however the backend splits its reads.", "quantifier": "every image, offset, size, block size, buffer size multiple of the block size, and every sequence of short reads allowed by the backend contract", "why_tests_cant": "short reads and alignment combine without bound", "anchors": ["ovirt_imageio/_internal/ops.py:Read._run", "ovirt_imageio/_internal/ops.py:Read._read_chunk"]}
{"id": "C09", "title": "A failing GET never sends wrong bytes", "statement": "If a read operation fails (image shorter than requested, short read in the middle of a block, cancel, error), the bytes sent before the failure are a prefix of the requested image range, and a success status of the operation is never reported with missing bytes.", "quantifier": "every image, request and failure point", "why_tests_cant": "every crash point", "anchors": ["ovirt_imageio/_internal/ops.py:Read._run", "ovirt_imageio/_internal/ops.py:Read._read_chunk", "ovirt_imageio/_internal/errors.py:PartialContent"]}
{"id": "C10", "title": "PUT stores exactly the request body at the requested offset", "statement": "When a write operation of size bytes at offset succeeds, the image bytes in [offset, offset+size) are the bytes of the request body in order, every other byte of the image is unchanged, and exactly size bytes were consumed from the body.", "quantifier": "every image, body, offset, size, buffer size, every chunking of the body and every sequence of short writes", "why_tests_cant": "unbounded number of chunkings and sizes", "anchors": ["ovirt_imageio/_internal/ops.py:Write._run", "ovirt_imageio/_internal/ops.py:Write._write_chunk"]}
{"id": "C11", "title": "An interrupted PUT changes only the requested range", "statement": "If a write operation fails at any point (client disconnects, backend error, cancel), every image byte outside [offset, offset+size) is unchanged, and the bytes counted as done are a correctly written prefix.", "quantifier": "every failure point", "why_tests_cant": "every crash point", "anchors": ["ovirt_imageio/_internal/ops.py:Write._run", "ovirt_imageio/_internal/ops.py:Write._write_chunk", "ovirt_imageio/_internal/ops.py:Operation.run"]}
{"id": "C12", "title": "PATCH zero zeroes exactly the requested range", "statement": "When a zero operation of size bytes at offset succeeds, the image bytes in [offset, offset+size) read as zero and every other byte is unchanged, whatever the steps taken and the bytes zeroed per backend call.", "quantifier": "every image, offset, size and every sequence of positive backend progress", "why_tests_cant": "unbounded sizes and progress sequences", "anchors": ["ovirt_imageio/_internal/ops.py:Zero._run", "ovirt_imageio/_internal/ops.py:Zero._zero_chunk"]}
{"id": "C13", "title": "Unaligned file writes change only the bytes written", "statement": "A write to a file or block backend at any position and of any length stores the data given (up to the returned count) at the current position and leaves all other existing bytes of the file unchanged, even when the block size forces read-modify-write; file growth is padded with zeros.", "quantifier": "every file content and length, position, data length, power of two block size, and every short direct write", "why_tests_cant": "position/length/EOF/block size combinations are unbounded", "anchors": ["ovirt_imageio/_internal/backends/file.py:Backend.write", "ovirt_imageio/_internal/backends/file.py:Backend._write_unaligned"]}
{"id": "C14", "title": "Direct I/O requests are always aligned", "statement": "Every read, write or fallocate system call issued on a file opened with O_DIRECT has an offset and a length that are multiples of the block size, whatever the caller asked for.", "quantifier": "every position and length of write and zero calls", "why_tests_cant": "combinations are unbounded", "anchors": ["ovirt_imageio/_internal/backends/file.py:Backend.write", "ovirt_imageio/_internal/backends/file.py:Backend._write_unaligned", "ovirt_imageio/_internal/backends/file.py:FileBackend._zero", "ovirt_imageio/_internal/backends/file.py:BlockBackend._zero"]}
{"id": "C15", "title": "Zeroing a file does not depend on the file system features", "statement": "Zeroing count bytes on a file or block device gives the same visible content as writing zeros, for every combination of supported/unsupported zero range, punch hole and fallocate, sparse or preallocated, inside, across or after the end of file.", "quantifier": "every subset of supported modes (also changing between calls), every content, position, count", "why_tests_cant": "the host running the test supports one combination only", "anchors": ["ovirt_imageio/_internal/backends/file.py:Backend.zero", "ovirt_imageio/_internal/backends/file.py:FileBackend._zero", "ovirt_imageio/_internal/backends/file.py:FileBackend._zero_sparse", "ovirt_imageio/_internal/backends/file.py:BlockBackend._zero", "ovirt_imageio/_internal/backends/file.py:FileBackend._fallocate", "ovirt_imageio/_internal/backends/file.py:Backend._write_zeros"]}
{"id": "C16", "title": "The memory backend is a growable byte array", "statement": "Any sequence of seek, write, zero, readinto, flush, clone calls on a memory backend gives the results of the same sequence on a plain growable byte array.", "quantifier": "every sequence of operations", "why_tests_cant": "unbounded histories", "anchors": ["ovirt_imageio/_internal/backends/memory.py:Backend"]}
{"id": "C17", "title": "The NBD backend transfers exactly the requested bytes", "statement": "readinto, write and zero of the NBD backend act on the export as on a fixed size byte array at the current position, never touch bytes outside of the request, never go beyond the end of the export and return the number of bytes processed.", "quantifier": "every export, position, length and minimum block size", "why_tests_cant": "unbounded", "anchors": ["ovirt_imageio/_internal/backends/nbd.py:Backend"]}
{"id": "C18", "title": "Range header parsing", "statement": "A Range header is accepted exactly when it has the form bytes=N- , bytes=N-M with M >= N, or bytes=-N; the accepted range denotes the bytes of RFC 7233, everything else is rejected, and no header makes the parser fail in another way.", "quantifier": "every string", "why_tests_cant": "infinitely many strings", "anchors": ["ovirt_imageio/_internal/http.py:Range.parse"]}
{"id": "C19", "title": "Content-Range header parsing", "statement": "A Content-Range header is accepted exactly in the form bytes first-last/complete, where last and complete may each be *, with first <= last and last < complete when given; the parsed first, last, complete are the numbers in the header; everything else (also the unsatisfied form bytes */complete) is rejected with a client error.", "quantifier": "every string", "why_tests_cant": "infinitely many strings", "anchors": ["ovirt_imageio/_internal/http.py:ContentRange.parse"]}
{"id": "C20", "title": "No request touches bytes outside of the ticket range", "statement": "No GET, PUT or PATCH request, with whatever Range, Content-Range, Content-Length or JSON body, makes the server send or modify a byte of the image at an offset >= the ticket size, or do anything to the image without a ticket granting that access.", "quantifier": "every request, ticket size and image size", "why_tests_cant": "an attacker chooses the headers", "anchors": ["ovirt_imageio/_internal/handlers/images.py:Handler.get", "ovirt_imageio/_internal/handlers/images.py:Handler.put", "ovirt_imageio/_internal/handlers/images.py:Handler._zero", "ovirt_imageio/_internal/validate.py:allowed_range", "ovirt_imageio/_internal/validate.py:available_range"]}
{"id": "C21", "title": "The server never reads a request body beyond its Content-Length", "statement": "Whatever sequence of read and readinto calls is issued on a request, at most Content-Length bytes are taken from the connection, they are delivered in order without gaps, so the next pipelined request is intact.", "quantifier": "every content length, every sequence of read sizes and socket short reads", "why_tests_cant": "unbounded sequences", "anchors": ["ovirt_imageio/_internal/http.py:Request.read", "ovirt_imageio/_internal/http.py:Request.readinto", "ovirt_imageio/_internal/http.py:Request.length"]}
{"id": "C22", "title": "Keep-alive connections stay in sync", "statement": "On a keep-alive connection, each request gets exactly one response and after a response the connection is either closed or positioned exactly at the start of the next request.", "quantifier": "every sequence of requests and handler outcomes", "why_tests_cant": "depends on unread bodies, error paths and history of the connection", "anchors": ["ovirt_imageio/_internal/http.py:Router.__call__", "ovirt_imageio/_internal/http.py:Connection.handle_one_request", "ovirt_imageio/_internal/http.py:Response.send_error", "ovirt_imageio/_internal/http.py:Response.write"]}
{"id": "C23", "title": "Request routing and error mapping", "statement": "A request is dispatched to the first route whose pattern matches the path; unknown path gives 404, unknown method 405; an application error gives its own status, an unexpected error gives 500, and after the headers were sent no second status line is sent but the connection is closed. The remote, local and control services serve exactly the methods and resources of their API (tickets only over the control service, data never over it), any other request gets 404 or 405; a client that is gone gets nothing more and its connection is closed.", "quantifier": "every route table, request and handler outcome", "why_tests_cant": "unbounded", "anchors": ["ovirt_imageio/_internal/http.py:Router.dispatch", "ovirt_imageio/_internal/http.py:Router.__call__"]}
{"id": "C24", "title": "Extents cover exactly the requested range", "statement": "The extents reported for an image start at 0, are contiguous, non empty, end exactly at the image size, and two consecutive extents never have the same flags.", "quantifier": "every export size and every way the NBD server splits, shortens or extends its block status replies", "why_tests_cant": "the server chooses the replies", "anchors": ["ovirt_imageio/_internal/nbdutil.py:extents", "ovirt_imageio/_internal/nbdutil.py:merged", "ovirt_imageio/_internal/backends/nbd.py:Backend.extents"]}
{"id": "C25", "title": "Extents report the flags of every byte", "statement": "For every byte of the image the flags reported by the extents API (zero, hole, dirty) are the flags reported by the NBD server for this byte in base:allocation or'ed with those of the dirty bitmap or allocation depth context when used.", "quantifier": "every byte of every image, every fragmentation of server replies in each context", "why_tests_cant": "the server chooses the replies", "anchors": ["ovirt_imageio/_internal/nbdutil.py:extents", "ovirt_imageio/_internal/nbdutil.py:merged", "ovirt_imageio/_internal/backends/nbd.py:Backend.extents", "ovirt_imageio/_internal/nbd.py:Extent"]}
{"id": "C26", "title": "NBD commands are encoded as the protocol demands", "statement": "Each NBD command sent is exactly the byte encoding demanded by the protocol, distinct commands have distinct encodings, decoding gives back the type, flags, handle, offset and length, and handles of successive commands differ.", "quantifier": "every command, 16 bit flags, 64 bit handle and offset, 32 bit length", "why_tests_cant": "64 bit ranges", "anchors": ["ovirt_imageio/_internal/nbd.py:Command", "ovirt_imageio/_internal/nbd.py:Read", "ovirt_imageio/_internal/nbd.py:Write", "ovirt_imageio/_internal/nbd.py:WriteZeroes", "ovirt_imageio/_internal/nbd.py:BlockStatus", "ovirt_imageio/_internal/nbd.py:Flush", "ovirt_imageio/_internal/nbd.py:Disc", "ovirt_imageio/_internal/nbd.py:Client._next_handle"]}
{"id": "C27", "title": "NBD structured reads assemble the data correctly", "statement": "For a compliant server, whatever way it cuts the reply of a read in data chunks and holes and in whatever order it sends them, the client buffer holds exactly the exported bytes, and exactly the bytes of the reply were consumed.", "quantifier": "every data, every split and order of chunks", "why_tests_cant": "the server chooses the chunks", "anchors": ["ovirt_imageio/_internal/nbd.py:Client._recv_reply", "ovirt_imageio/_internal/nbd.py:Client._recv_reply_chunk", "ovirt_imageio/_internal/nbd.py:Client._handle_data_chunk", "ovirt_imageio/_internal/nbd.py:Client._handle_hole_chunk"]}
{"id": "C28", "title": "NBD request errors leave the connection usable", "statement": "When the server fails a request (simple error, error chunk, error offset chunk, also mixed with data chunks), the client reports an error, consumed exactly the bytes of the reply, and the next reply is parsed correctly.", "quantifier": "every reply of a compliant server", "why_tests_cant": "unbounded chunk sequences", "anchors": ["ovirt_imageio/_internal/nbd.py:Client._recv_reply", "ovirt_imageio/_internal/nbd.py:Client._recv_simple_reply", "ovirt_imageio/_internal/nbd.py:Client._recv_error_chunk", "ovirt_imageio/_internal/nbd.py:Client._handle_error_chunk", "ovirt_imageio/_internal/nbd.py:Client._handle_error_offset_chunk"]}
{"id": "C29", "title": "Block status replies are decoded exactly", "statement": "A block status chunk with n descriptors gives n extents in each context with the lengths and flags sent by the server, malformed payload lengths are rejected with a protocol error.", "quantifier": "every payload", "why_tests_cant": "unbounded payloads", "anchors": ["ovirt_imageio/_internal/nbd.py:Client._handle_block_status_chunk", "ovirt_imageio/_internal/nbd.py:Client._recv_extents", "ovirt_imageio/_internal/nbd.py:Extent.unpack"]}
{"id": "C30", "title": "Checksum blocks partition the image", "statement": "The blocks computed from the extents to compute a checksum cover the image exactly, contiguous, each of block_size bytes except the last, and a block is treated as zero only if all its bytes are in extents reported as zero.", "quantifier": "every list of contiguous extents and block size", "why_tests_cant": "unbounded", "anchors": ["ovirt_imageio/_internal/blkhash.py:split", "ovirt_imageio/_internal/blkhash.py:Block"]}
{"id": "C31", "title": "Checksum depends only on the image content", "statement": "The checksum is a function of image content, block size and algorithm: extents layout, zero detection, reading in any buffer pieces never changes the value, and it equals the checksum computed by a plain pass over a file with the same content.", "quantifier": "every content, extents layout that is truthful about zeros, block size", "why_tests_cant": "unbounded layouts", "anchors": ["ovirt_imageio/_internal/blkhash.py:Hash", "ovirt_imageio/_internal/blkhash.py:checksum", "ovirt_imageio/_internal/handlers/checksum.py:Operation._run"]}
{"id": "C32", "title": "Zero detection is exact", "statement": "is_zero(buf) returns true if and only if all the bytes in buf are zero.", "quantifier": "every buffer of every length", "why_tests_cant": "unbounded lengths and contents", "anchors": ["ovirt_imageio/_internal/ioutil.c:is_zero"]}
{"id": "C33", "title": "Client transfer requests cover the extents exactly", "statement": "The requests submitted for an extent are contiguous, within the size limit and cover the extent exactly.", "quantifier": "every extent and size limit", "why_tests_cant": "unbounded", "anchors": ["ovirt_imageio/client/_io.py:Executor._split", "ovirt_imageio/client/_io.py:Executor.submit"]}
{"id": "C34", "title": "A successful client copy gives an identical image, for every schedule", "statement": "When copy() returns without error the destination content equals the source content (or for incremental copy equals the source on dirty extents and is otherwise unchanged), whatever the number of workers, the order in which they take and execute the requests, with zero and hole flags set as documented.", "quantifier": "every source, truthful extents, every schedule of any number of workers", "why_tests_cant": "schedules are unbounded", "anchors": ["ovirt_imageio/client/_io.py:copy", "ovirt_imageio/client/_io.py:_copy_data", "ovirt_imageio/client/_io.py:_copy_dirty", "ovirt_imageio/client/_io.py:Executor", "ovirt_imageio/client/_io.py:Worker", "ovirt_imageio/client/_io.py:Handler"]}
{"id": "C35", "title": "A failed worker never looks like success", "statement": "If any request fails in any worker, copy() raises an error; it never returns success with a request that was not executed.", "quantifier": "every schedule and failure point", "why_tests_cant": "schedules are unbounded", "anchors": ["ovirt_imageio/client/_io.py:Executor.stop", "ovirt_imageio/client/_io.py:Executor.__exit__", "ovirt_imageio/client/_io.py:Worker._run"]}
{"id": "C36", "title": "The client request queue is a bounded FIFO that does not lose requests and does not deadlock", "statement": "Requests are delivered to workers in FIFO order, each one exactly once, at most maxlen are queued, closing drops them and wakes everyone, and no reachable state has everybody blocked while progress is possible.", "quantifier": "every schedule of any number of producers and consumers", "why_tests_cant": "schedules are unbounded", "anchors": ["ovirt_imageio/client/_io.py:Queue"]}
{"id": "C37", "title": "nbdutil.copy gives an identical image", "statement": "When nbdutil.copy returns without error the destination export equals the source export for every interleaving of the reader and writer threads, and it always terminates.", "quantifier": "every source, extents, queue depth and schedule, every failure point", "why_tests_cant": "schedules", "anchors": ["ovirt_imageio/_internal/nbdutil.py:copy", "ovirt_imageio/_internal/nbdutil.py:_read", "ovirt_imageio/_internal/nbdutil.py:_write"]}
{"id": "C38", "title": "Extents survive the HTTP API", "statement": "Converting extents to JSON objects and back gives the same extents, for zero and dirty extents.", "quantifier": "every extent", "why_tests_cant": "unbounded", "anchors": ["ovirt_imageio/_internal/extent.py:ZeroExtent", "ovirt_imageio/_internal/extent.py:DirtyExtent"]}
{"id": "C39", "title": "IPv6 quoting and NBD addresses round trip", "statement": "For every host, port, export name or socket path the URL built for an NBD address is parsed back to the same address.", "quantifier": "every host, path and export name", "why_tests_cant": "unbounded strings", "anchors": ["ovirt_imageio/_internal/ipv6.py:quote", "ovirt_imageio/_internal/ipv6.py:unquote", "ovirt_imageio/_internal/nbd.py:UnixAddress", "ovirt_imageio/_internal/nbd.py:TCPAddress", "ovirt_imageio/_internal/nbd.py:_parse_url"]}
{"id": "C40", "title": "Flush on PUT is durable", "statement": "When a PUT or PATCH request with flush requested succeeds, the backend was flushed after the last modification made by this request; without flush no flush is forced.", "quantifier": "every request and every chunking", "why_tests_cant": "ordering over unbounded executions", "anchors": ["ovirt_imageio/_internal/ops.py:Write._run", "ovirt_imageio/_internal/ops.py:Zero._run", "ovirt_imageio/_internal/handlers/images.py:Handler.put"]}
{"id": "C41", "title": "HTTP backend requests address exactly the caller range", "statement": "Every request the HTTP backend sends to the remote server for readinto, write, zero, read_from, write_to at the current position denotes exactly the bytes of the call, clipped to the image size, also when zero has to be emulated by writing, and the position advances by the bytes done.", "quantifier": "every position, length, and server features", "why_tests_cant": "unbounded", "anchors": ["ovirt_imageio/_internal/backends/http.py:Backend"]}
{"id": "C42", "title": "Ticket validation", "statement": "A ticket description is accepted only if all required fields are present with the right type and optional fields have the right type; the accepted ticket has exactly the values given or the documented defaults; otherwise the caller gets a client error and the ticket list is unchanged.", "quantifier": "every JSON object", "why_tests_cant": "unbounded inputs", "anchors": ["ovirt_imageio/_internal/auth.py:Ticket.__init__", "ovirt_imageio/_internal/auth.py:_required", "ovirt_imageio/_internal/auth.py:_optional", "ovirt_imageio/_internal/auth.py:_validate", "ovirt_imageio/_internal/handlers/tickets.py:Handler.put"]}
{"id": "C43", "title": "Block size detection is sound", "statement": "The block size detected for a file backend is one with which aligned direct reads work; it is 512 or 4096, and an unsupported storage gives an error.", "quantifier": "every storage requirement", "why_tests_cant": "one host supports one value", "anchors": ["ovirt_imageio/_internal/backends/file.py:FileBackend._detect_block_size", "ovirt_imageio/_internal/backends/file.py:BlockBackend"]}
{"id": "C44", "title": "TLS minimum version", "statement": "Unless TLS 1.1 is explicitly enabled in the configuration, the server and client contexts do not allow protocol versions lower than TLS 1.2, and never lower than 1.1.", "quantifier": "every configuration value", "why_tests_cant": "one configuration and openssl build per test run", "anchors": ["ovirt_imageio/_internal/ssl.py:server_context", "ovirt_imageio/_internal/ssl.py:client_context"]}
{"id": "C45", "title": "Size options", "statement": "A size given on the command line or config with unit is parsed to the number it denotes and accepted exactly when within the limits.", "quantifier": "every string", "why_tests_cant": "unbounded", "anchors": ["ovirt_imageio/client/_options.py:Size", "ovirt_imageio/client/_options.py:SizeValue"]}
{"id": "C46", "title": "Option priority", "statement": "The value of an option is the command line value if given, else the configuration file value, else the default; missing required options give an error.", "quantifier": "every combination", "why_tests_cant": "combinations", "anchors": ["ovirt_imageio/client/_options.py:Parser._merge_config", "ovirt_imageio/client/_options.py:Parser._set_defaults"]}
{"id": "C47", "title": "Configuration files override in order", "statement": "Loading configuration files applies them in the documented order, the last value wins, unknown sections or keys are rejected or ignored as documented, and values keep the type of the default.", "quantifier": "every set of files", "why_tests_cant": "unbounded", "anchors": ["ovirt_imageio/_internal/configloader.py:load", "ovirt_imageio/_internal/server.py:load_config"]}
{"id": "C48", "title": "A successful request does exactly what its headers say", "statement": "A PUT that reports no error has stored exactly Content-Length bytes of the body at the offset of Content-Range and flushed them unless flush=n; a PATCH zero has zeroed exactly the range in the message; a GET has sent exactly the bytes of its Range (or all up to the ticket size) with matching status, Content-Length and Content-Range. Requests outside of the available range get 416 and do nothing, and every request ends. The connection is closed if the client asked for it with close=y, and after a successful request only then.", "quantifier": "every request, image, ticket, backend behaviour", "why_tests_cant": "combination of header parsing, validation, operation and cancellation", "anchors": ["ovirt_imageio/_internal/handlers/images.py:Handler.put", "ovirt_imageio/_internal/handlers/images.py:Handler.get", "ovirt_imageio/_internal/handlers/images.py:Handler.patch", "ovirt_imageio/_internal/validate.py"]}
{"id": "C49", "title": "OPTIONS reports the permitted methods", "statement": "OPTIONS for a ticket lists GET exactly if the ticket would be authorized to read, PUT and PATCH exactly if it would be authorized to write, and counts as activity on the ticket.", "quantifier": "every ticket store, time and request", "why_tests_cant": "all combinations of ticket operations and state", "anchors": ["ovirt_imageio/_internal/handlers/images.py:Handler.options"]}
{"id": "C50", "title": "NBD replies to other requests are refused", "statement": "A reply carrying the handle of another request is never taken as the reply to the current request: the client reports a protocol error.", "quantifier": "every request, every state of the client, every reply", "why_tests_cant": "64 bit handles, every reply content", "anchors": ["ovirt_imageio/_internal/nbd.py:Client._recv_reply_chunk", "ovirt_imageio/_internal/nbd.py:Client._recv_simple_reply"]}
{"id": "C51", "title": "A successful client copy reports the whole image as progress", "statement": "When copy() returns without error, the sum of the progress updates is the size of the source, whatever was skipped, zeroed or copied, in any order.", "quantifier": "every source, extents covering it, every schedule of any number of workers", "why_tests_cant": "schedules and images are unbounded", "anchors": ["ovirt_imageio/client/_io.py:copy", "ovirt_imageio/client/_io.py:Handler"]}
{"id": "C52", "title": "Control API over the ticket store", "statement": "The ticket store behaves as a dictionary of tickets: GET shows what was PUT, PATCH changes only the expiration, DELETE is idempotent and answers 204 only when the ticket is gone (409 leaves it canceled while still in use), failed requests change nothing, and a request about one ticket does not touch others.", "quantifier": "every sequence of control requests and every state of the tickets, requests not overlapping", "why_tests_cant": "unbounded histories and values", "anchors": ["ovirt_imageio/_internal/handlers/tickets.py:Handler", "ovirt_imageio/_internal/auth.py:Authorizer", "ovirt_imageio/_internal/auth.py:Ticket.info"]}
{"id": "C53", "title": "Overlapping control requests and transfers", "statement": "For every interleaving of ticket additions, removals, clearing and transfers: a DELETE answering 204 (with a removal timeout configured) means that at some time during the request no such ticket was stored, or that a ticket stored during the request is dead: canceled, no operation running, backends closed, and no operation will ever run with it. When control requests for one ticket do not overlap, a DELETE answers 204 or 409, removes exactly the ticket it canceled, and no added ticket is forgotten while it can be used, unless it was replaced or cleared.", "quantifier": "every interleaving of any number of threads", "why_tests_cant": "interleavings", "anchors": ["ovirt_imageio/_internal/auth.py:Authorizer.add", "ovirt_imageio/_internal/auth.py:Authorizer.remove", "ovirt_imageio/_internal/auth.py:Authorizer.clear", "ovirt_imageio/_internal/auth.py:Authorizer.authorize", "ovirt_imageio/_internal/handlers/tickets.py:Handler.delete"]}
{"id": "C54", "title": "The HTTP backend and the server form one array", "statement": "Any sequence of readinto, write, zero, flush, size, tell, seek, read_from and write_to calls on an HTTP backend, and on clones of it used in turn, connected to an imageio server whose ticket covers the whole image, does what the calls do on one array of bytes with a position per backend, also when calls fail in the middle; a successful flush after successful calls means the server flushed its backend after every change; a call inside of the image succeeds if nothing fails.", "quantifier": "every sequence of calls, every image, every behaviour of the connection and of the server's storage, every set of server features", "why_tests_cant": "client, protocol and server composed, failures anywhere, unbounded sequences", "anchors": ["ovirt_imageio/_internal/backends/http.py:Backend", "ovirt_imageio/_internal/handlers/images.py:Handler", "ovirt_imageio/_internal/handlers/extents.py:Handler"]}
{"id": "C55", "title": "Feature detection of the HTTP backend", "statement": "After connecting, the HTTP backend uses zero and flush requests exactly when the ticket may write and the extents request exactly when the ticket may read or write, connecting changes nothing on the server, and with a server that does not know OPTIONS or answers without JSON no feature is used.", "quantifier": "every ticket and every server answer", "why_tests_cant": "all combinations of answers", "anchors": ["ovirt_imageio/_internal/backends/http.py:Backend._options", "ovirt_imageio/_internal/backends/http.py:Backend._connect", "ovirt_imageio/_internal/handlers/images.py:Handler.options"]}
{"id": "C56", "title": "NBD handshake", "statement": "Connecting to an NBD server succeeds exactly when the bytes received form a handshake the protocol allows: any set of supported options (structured replies or not, metadata contexts or not), any contexts and infos, any error messages, received in any pieces. The client then knows exactly what the server said (last export size and flags, last block sizes or the defaults of the protocol, the id of each context and the context of each id, the dirty bitmap iff asked for, unique and selected), has sent exactly the flags and the options STRUCTURED_REPLY, LIST_META_CONTEXT and SET_META_CONTEXT (if structured replies are on) and GO with the name of the export, and has consumed exactly the bytes of the handshake.", "quantifier": "every sequence of bytes sent by the server, every export name, every splitting of the received bytes", "why_tests_cant": "all byte sequences and all combinations of server features", "anchors": ["ovirt_imageio/_internal/nbd.py:Client.__init__", "ovirt_imageio/_internal/nbd.py:Client._newstyle_handshake", "ovirt_imageio/_internal/nbd.py:Client._negotiate_go_option", "ovirt_imageio/_internal/nbd.py:Client._set_meta_context", "ovirt_imageio/_internal/nbd.py:Client._query_dirty_bitmap"]}
{"id": "C57", "title": "Failed NBD handshakes", "statement": "Whatever bytes the server sends, connecting ends: with a client, or with an exception: a protocol error, an option error carrying the code of an error reply that was the last thing received, or an error for a name that is not text or too long. In the second case everything sent is the client's flags followed by complete options, the last of them ABORT.", "quantifier": "every sequence of bytes sent by the server", "why_tests_cant": "all malformed inputs", "anchors": ["ovirt_imageio/_internal/nbd.py:Client.__init__", "ovirt_imageio/_internal/nbd.py:Client.close", "ovirt_imageio/_internal/nbd.py:Client._soft_disconnect", "ovirt_imageio/_internal/nbd.py:Client._handle_option_error"]}
{"id": "C58", "title": "Opening and using an NBD image", "statement": "Opening a backend on an NBD server and running any program on it, starting from the first byte of the connection, behaves as the program on a byte array of the size announced in the handshake; the extents reported tile the image and say what the server reported in the contexts selected in the handshake.", "quantifier": "every server, every program, every image", "why_tests_cant": "handshake and transmission composed, unbounded sequences", "anchors": ["ovirt_imageio/_internal/nbd.py:Client", "ovirt_imageio/_internal/backends/nbd.py:open", "ovirt_imageio/_internal/backends/nbd.py:Backend"]}
{"id": "C59", "title": "Uploads", "statement": "When upload() returns without an error, the image on the server has the bytes of the local image: data always, zeros and holes unless the options say that they are skipped (the disk is zero, or no backing chain for holes); bytes after the end of the source are unchanged, every change was flushed by the server, and the progress reported is the size of the source. At any moment, also after a failure, every byte on the server is the old one or the one of the source. A source that does not fit fails. If any call fails, upload() fails; if nothing fails it succeeds, and it always ends.", "quantifier": "every local image and extents, options, number of workers, schedule of the threads, failure of the server and of the connections", "why_tests_cant": "interleavings of threads and failures of a distributed operation", "anchors": ["ovirt_imageio/client/_api.py:upload", "ovirt_imageio/client/_io.py:copy", "ovirt_imageio/_internal/backends/http.py:Backend", "ovirt_imageio/_internal/handlers/images.py:Handler"]}
{"id": "C60", "title": "Downloads", "statement": "When download() returns without an error, the local image has the bytes of the server in all extents reported as data (dirty, for an incremental download), zeros where reported if there is a backing file, and is unchanged elsewhere; a full download to a new image is identical to the image of the server. The server is never changed, every byte of the local image is at any moment the one of the new image or the one of the server. Incremental downloads need qcow2 and a server with extents. If any call fails, download() fails; it always ends.", "quantifier": "every server image and truthful extents, options, number of workers, schedule, failure", "why_tests_cant": "interleavings of threads and failures of a distributed operation", "anchors": ["ovirt_imageio/client/_api.py:download", "ovirt_imageio/client/_io.py:copy", "ovirt_imageio/_internal/backends/http.py:Backend"]}
{"id": "C61", "title": "Requests sharing one image", "statement": "GET, PUT and zero requests of several connections to one file or block device, each with its own descriptor, do not disturb each other if they only read or have no block in common: at any moment of any execution every request that ended with success did exactly its work (a GET sent the bytes of its range, a PUT stored its body, a zero its zeros), the image keeps its size, and no byte outside of the ranges of the writing requests changed - also when requests fail, or the server stops in the middle. All complete executions give the same replies and the same content, so they equal serving the requests one after the other. Requests can always be completed, and if nothing goes wrong they all succeed.", "quantifier": "every number of connections, request, image, kernel answers (short and failed calls included), cancellation, failure of a client, and interleaving of system calls", "why_tests_cant": "the interleavings of system calls of several threads, with partial results of each call, cannot be enumerated or forced by tests", "anchors": ["ovirt_imageio/_internal/ops.py:Read", "ovirt_imageio/_internal/ops.py:Write", "ovirt_imageio/_internal/ops.py:Zero", "ovirt_imageio/_internal/backends/file.py:Backend"]}
{"id": "C62", "title": "Writers of distinct byte ranges", "statement": "With multiple writers, each modifying a distinct byte range (docs/images.md, max_writers), every write that succeeds is stored.", "quantifier": "every image, pair of requests with disjoint ranges, and interleaving", "why_tests_cant": "needs two writers in the same storage block between one read and one write system call", "anchors": ["ovirt_imageio/_internal/backends/file.py:Backend._write_unaligned", "ovirt_imageio/_internal/backends/file.py:BlockBackend.max_writers"]}
{"id": "C63", "title": "ovirt-img: success means that engine confirmed it", "statement": "When upload-disk or download-disk ends with success, then in this order: (upload) the disk was made and became OK, one transfer was made and became ready, the data was transferred without an error, the transfer was finalized, and engine confirmed that it ended well (phase FINISHED_SUCCESS, or, when the transfer is already gone, status OK of the disk). The transfer was finalized once and not cancelled, and 'completed' is the last thing shown. Exit status 0 and 'completed' are seen exactly when the command succeeded; in all other cases 'command failed' is the last thing shown.", "quantifier": "every sequence of answers and failures of engine, qemu-img and the data transfer, and every passing of time between them", "why_tests_cant": "the answers of engine at each poll and the time of each call cannot be enumerated; real runs show only the usual sequence", "anchors": ["ovirt_imageio/client/_ovirt.py:finalize_transfer", "ovirt_imageio/client/_upload.py:upload_disk", "ovirt_imageio/client/_download.py:download_disk", "ovirt_imageio/client/_tool.py:main"]}
{"id": "C64", "title": "ovirt-img: the transfer is ended exactly once", "statement": "A command makes at most one of the requests to finalize and to cancel a transfer. After the data was uploaded the transfer is finalized; after a failed upload it is cancelled and the command fails. A download finalizes the transfer in both cases. Whenever a command ends, a transfer that it made was finalized or cancelled, unless engine said that it is gone; a disk that it made is used by a transfer.", "quantifier": "every sequence of answers and failures of engine, qemu-img and the data transfer, and every passing of time between them", "why_tests_cant": "needs a failure at each of the requests to engine", "anchors": ["ovirt_imageio/client/_ovirt.py:create_transfer", "ovirt_imageio/client/_ovirt.py:cancel_transfer", "ovirt_imageio/client/_ovirt.py:finalize_transfer", "ovirt_imageio/client/_upload.py:upload_disk", "ovirt_imageio/client/_download.py:download_disk"]}
{"id": "C65", "title": "ovirt-img: polling ends", "statement": "The polling loops end whatever engine answers: with the time outs used by the commands the phase of the transfer is asked for at most 363 times in a command, and the status of the disk at most (disk timeout + 1) times.", "quantifier": "every sequence of answers and failures of engine and every passing of time (a sleep takes at least its argument)", "why_tests_cant": "tests cannot run engine answering forever with a phase that is not final", "anchors": ["ovirt_imageio/client/_ovirt.py:_wait_for_disk", "ovirt_imageio/client/_ovirt.py:create_transfer", "ovirt_imageio/client/_ovirt.py:finalize_transfer"]}
{"id": "C66", "title": "ovirt-img upload-disk: the new disk fits the image", "statement": "The disk made for an upload has the virtual size of the image, the name given by the user or the file name of the image without its extension, and the format and allocation asked for by the user; images of raw format with the ISO 9660 magic at offset 0x8001 become ISO disks, raw and preallocated, and only these. The initial size is the measured size, and set only for sparse qcow2. The upload skips zeroes only when the new disk is qcow2 or sparse, so that it reads as zeroes.", "quantifier": "every image information, content, options, and sequence of answers", "why_tests_cant": "combinations of formats, options, names and contents are unbounded", "anchors": ["ovirt_imageio/client/_upload.py:_prepare", "ovirt_imageio/client/_upload.py:_is_iso", "ovirt_imageio/client/_ovirt.py:add_disk"]}
{"id": "C67", "title": "Checksum requests", "statement": "GET /images/id/checksum is answered with a checksum only if the id is a ticket that allows reading, the algorithm is one of those offered (blake2b by default) and the block size (4 MiB by default, any text that Python takes for an integer) is 1 to 16 MiB and a multiple of 4096; the checksum is the block based checksum, for this algorithm and block size, of the bytes that the ticket gives access to. Other values are refused with 400 before the ticket is looked at and before anything is read. Reads are inside of the image, block by block, and only of blocks that are not reported as zero. A valid request for an offered algorithm succeeds if nothing goes wrong. A request canceled while it runs is answered with 403 and the connection is closed.", "quantifier": "every query, ticket, image, honest extents, kernel answers and cancellation", "why_tests_cant": "texts of integers, images, extents and block sizes are unbounded", "anchors": ["ovirt_imageio/_internal/handlers/checksum.py:Checksum.get", "ovirt_imageio/_internal/handlers/checksum.py:Operation._run", "ovirt_imageio/_internal/blkhash.py:Hash"]}
{"id": "C68", "title": "Verifying a transfer with checksums", "statement": "After a successful upload of an image to a disk of the same size, the checksum reported by the server equals the checksum that the client computes from the local image, with the same algorithm and block size, whatever the extents at both sides. Conversely, if both checksums are equal, then the images are equal, or the hash function has a collision; this holds after any transfer, also after one that went wrong.", "quantifier": "every image, upload execution, extents, block size, and hash function with digests of one length", "why_tests_cant": "quantifies over all images and hash functions; a missed difference shows only for specific contents", "anchors": ["ovirt_imageio/client/_api.py:checksum", "ovirt_imageio/client/_api.py:upload", "ovirt_imageio/_internal/handlers/checksum.py:compute"]}
{"id": "C69", "title": "End to end transfers", "statement": "An image served by an NBD server that tells the truth about zeros and uploaded successfully to a disk is what the disk reads as, up to the size of the image. An image in a file or served by such an NBD server, downloaded successfully, is the local image; an incremental download has exactly the dirty blocks. An image uploaded to a file and downloaded from it again is the original image. The checksum of the downloaded image is the checksum of the image of the server.", "quantifier": "every image, NBD server answering with any number and kind of replies, schedule of workers, buffer size, and answer of the network", "why_tests_cant": "composes all layers over all replies of an NBD server and all schedules; a test samples a few images and one schedule", "anchors": ["ovirt_imageio/client/_api.py:upload", "ovirt_imageio/client/_api.py:download", "ovirt_imageio/_internal/backends/nbd.py:Backend.extents", "ovirt_imageio/_internal/backends/file.py:Backend.extents"]}
{"id": "C70", "title": "The daemon terminates when asked, and only then", "statement": "The daemon exits with status 0 only after SIGINT or SIGTERM, with every service stopped; until then every service keeps running. Once the signal woke the daemon or was handled before it checks whether to run, it exits after at most 6n+4 steps of the main thread and of the service it waits for, for n services, and one of these steps is always possible. Failing to notify systemd stops all services and exits with 1.", "quantifier": "every interleaving of the main thread, the threads of the services, signals and handlers, any number of services", "why_tests_cant": "lost wake-ups depend on the instruction at which the signal arrives; a test cannot send a signal between two instructions", "anchors": ["ovirt_imageio/_internal/server.py:main", "ovirt_imageio/_internal/server.py:Server.start", "ovirt_imageio/_internal/server.py:Server.stop", "ovirt_imageio/_internal/server.py:Server.terminate", "ovirt_imageio/_internal/services.py:Service"]}
{"id": "C71", "title": "Dropping privileges", "statement": "Started as root with drop_privileges, the daemon serves as the configured user: real, effective and saved user and group ids and the supplementary groups are those of the user, and no system call gives root back. All sockets are bound before with the privileges of root, also when something fails later, and the ticket given on the command line is read after. Otherwise the credentials do not change and no owner is changed. The control socket has mode 0660 and belongs to the user the daemon runs as.", "quantifier": "every configuration, user database, file system state, and failure of any system call", "why_tests_cant": "tests run as one user and see one outcome of each call; the claim is about what remains possible after, and about all orders of failure", "anchors": ["ovirt_imageio/_internal/server.py:Server.__init__", "ovirt_imageio/_internal/server.py:Server._drop_privileges", "ovirt_imageio/_internal/services.py:ControlService.__init__"]}
{"id": "C72", "title": "Configurations that start", "statement": "The daemon starts with a configuration if and only if the ports are TCP ports, TLS has its files, and the control transport is known with a usable address, unless a system call fails. A wrong remote port is refused before anything is bound.", "quantifier": "every configuration, user database and file system state", "why_tests_cant": "tests try a few configurations", "anchors": ["ovirt_imageio/_internal/services.py:RemoteService.__init__", "ovirt_imageio/_internal/services.py:LocalService.__init__", "ovirt_imageio/_internal/services.py:ControlService.__init__", "ovirt_imageio/_internal/server.py:Server.__init__"]}
{"id": "C73", "title": "Transfers leave nothing behind", "statement": "An upload, download, checksum or extents of a local image ends, and whatever fails, it leaves no qemu-nbd process, no temporary directory and no connection to the server. The work starts only after the process accepted a connection, and success means that the work was done. The proxy is used only when one is given and the host cannot be reached; an incremental download to another format than qcow2 is refused before anything is done. Waiting for the process sleeps no longer than its timeout.", "quantifier": "every outcome of every call, every clock that does not go back, all arguments", "why_tests_cant": "tests cannot make every call fail in turn, in every combination", "anchors": ["ovirt_imageio/client/_api.py:upload", "ovirt_imageio/client/_api.py:download", "ovirt_imageio/client/_api.py:_open_nbd", "ovirt_imageio/client/_api.py:_open_http", "ovirt_imageio/_internal/qemu_nbd.py:Server.start", "ovirt_imageio/_internal/qemu_nbd.py:Server.stop", "ovirt_imageio/_internal/qemu_nbd.py:run", "ovirt_imageio/_internal/sockutil.py:wait_for_socket", "ovirt_imageio/_internal/util.py:tmp_dir"]}
{"id": "C74", "title": "qemu-nbd shows the disk that was asked for", "statement": "The qemu-nbd process started for an operation shows exactly the disk of the operation: the image in the given format, in the whole file or in a member of a tar file, with or without its backing chain as asked; read only unless it is the destination of a download.", "quantifier": "every image format, file content, offset, size, and any decoder of formats", "why_tests_cant": "tests try a few formats; an OVA with another format would need its own test", "anchors": ["ovirt_imageio/_internal/qemu_nbd.py:Server.start", "ovirt_imageio/client/_api.py:_open_nbd", "ovirt_imageio/client/_api.py:upload"]}
{"id": "C75", "title": "Number of connections", "statement": "During a copy, the connections to the qemu-nbd process never exceed the number of clients it was started for, and the connections to the server never exceed max_writers for an upload and max_readers for a download.", "quantifier": "every execution of the copy threads, every number of workers and limit", "why_tests_cant": "the number of open connections depends on the interleaving of the workers", "anchors": ["ovirt_imageio/client/_api.py:upload", "ovirt_imageio/client/_api.py:download", "ovirt_imageio/client/_io.py:copy"]}
{"id": "C76", "title": "ImageioClient is an array of bytes", "statement": "Any sequence of read, write, zero, read_from, write_to, size, flush and close calls on an ImageioClient connected to an imageio server whose ticket covers the whole image behaves as an array of bytes addressed by the offset of each call: a read returns only after filling the whole buffer with the range, a successful write, zero or read_from replaces exactly its range, a failed one changes nothing outside of it. A call whose non-empty range is not inside of the image does not succeed and changes nothing; a read or write behind the end raises RuntimeError without sending data requests. A call with a non-empty range inside of the image succeeds when the server does what it is asked. After a successful flush all changes are flushed by the server. After close nothing reaches the server; leaving the with block closes the client, raises the error of the block if there is one, and otherwise the error of close.", "quantifier": "all sequences of calls and arguments, every usable server, every failure of the network, reader, writer and server", "why_tests_cant": "tests use a few offsets with a server that works; the bounds hold for all offsets and whatever fails in between", "anchors": ["ovirt_imageio/client/_api.py:ImageioClient", "ovirt_imageio/_internal/backends/http.py:Backend", "ovirt_imageio/_internal/backends/common.py:Closed"]}
{"id": "C77", "title": "The progress bar shows the transfer", "statement": "For any calls of update(), phase, size and close() by any threads: each call draws at most one line, which shows the bytes of all updates so far, the size and the phase set last; a new phase or size is drawn at once; the percents and the time never go back; once closed nothing is drawn or changed, and exactly one line, the last one, ends the bar and shows all bytes. When the with block fails the last line shows the error phase. With a known size the line drawn last shows the current percents: 100*done/size rounded down, 100% if and only if all is transferred, and at most 103 lines are drawn plus one for each change of the phase. util.humansize shows a size in its unit, rounded to two decimals.", "quantifier": "all interleavings of calls, all sizes and numbers of bytes, floating point rounding included", "why_tests_cant": "tests use sizes where the floating point division is exact enough; rounding errors appear only for some of all pairs of done and size", "anchors": ["ovirt_imageio/client/_ui.py:ProgressBar", "ovirt_imageio/_internal/util.py:humansize"]}
{"id": "C78", "title": "The clock measures", "statement": "For any calls of start, stop and abort of a stats.Clock, each name independently: start succeeds if and only if the name is not running, stop and abort if and only if it is running, a failing call changes nothing; the seconds of a name are the sum of its intervals and ops the number of successful stops. run() passes on the result or exception of its block, adds the time of the block once, counts the operation only if the block succeeded, and leaves the name not running. The clock can always be shown, with the operations and seconds of each name in order of the first start.", "quantifier": "all sequences of calls, names and times, every block under run()", "why_tests_cant": "tests use a few sequences with a fake time", "anchors": ["ovirt_imageio/_internal/stats.py:Clock"]}
{"id": "C79", "title": "The admin client manages the tickets it names", "statement": "For a ticket id of printable ASCII without '?' and '%': Client.add_ticket succeeds if and only if the description is valid, and then the ticket of this description is stored; get_ticket returns the stored ticket or fails with ServerError 404; mod_ticket changes the expiration only; when del_ticket returns the ticket is gone, when it fails with 409 the ticket is in use and canceled, and removing again succeeds and changes nothing. Whatever happens to the connection, a call raises nothing but ClientError and ServerError, touches no other ticket, and takes effect at most once; a refused call changes nothing but that a removal refused with 409 cancels. start_profile succeeds if and only if no profile is running, stop_profile if and only if one is. ovirt-imageioctl exits with 0 if and only if its call succeeded, and reports server and connection errors without a traceback.", "quantifier": "all ids, descriptions, states of the daemon, times, connection failures", "why_tests_cant": "tests use a few tickets over a working connection", "anchors": ["ovirt_imageio/admin/_api.py:Client", "ovirt_imageio/admin/tool.py:main", "ovirt_imageio/_internal/handlers/profile.py:Handler", "ovirt_imageio/_internal/handlers/tickets.py:Handler"]}
{"id": "C80", "title": "The client reads the response that was sent", "statement": "For every handler setting headers (names are tokens, values have no line breaks and can be encoded): a client parsing the bytes of the response reads the status set last before the first write, the fields server and date and exactly the headers set, each name once (case does not matter) with its last value, and then exactly the bytes written. Headers set later have no effect. An error raised before the response started is read with its code (500 if it is no http.Error), its text as body, the length of this body and a plain text type, and closes the connection if content was not read; an error raised later closes the connection. A download has content-length, content-type, content-disposition with the file name of the ticket and, for a range, status 206 and the content-range.", "quantifier": "all sequences of header assignments and writes of a handler, all errors, all texts in Unicode", "why_tests_cant": "tests read responses with a few headers through http.client", "anchors": ["ovirt_imageio/_internal/http.py:Response", "ovirt_imageio/_internal/http.py:Headers", "ovirt_imageio/_internal/http.py:Router.__call__", "ovirt_imageio/_internal/handlers/images.py:get"]}
{"id": "C81", "title": "Web pages can upload and download", "statement": "A method decorated with cors.allow answers every request, successful or not, as without the decorator, plus access-control-allow-origin, -headers and -methods each exactly when the request has a non empty Origin, Access-Control-Request-Headers or Access-Control-Request-Method, and max-age when any is there. For /images/ the preflight reply permits GET and PUT with any header to any page but not PATCH, and replies to GET, PUT and OPTIONS can be read by the page, errors included.", "quantifier": "all handlers not setting CORS headers themselves, all requests", "why_tests_cant": "tests check a few requests", "anchors": ["ovirt_imageio/_internal/cors.py:allow", "ovirt_imageio/_internal/handlers/images.py:Handler"]}
{"id": "C82", "title": "What a connection opened is closed when it ends", "statement": "For every interleaving of connections, requests, and cancellations: when a connection has ended, every backend that was opened for it was closed, exactly once, unless its buffer could not be allocated, the socket refused the inactivity timeout of the ticket, closing it raised, or another ticket with the same uuid was used on the connection. In particular with tickets of different uuids, timeouts from 0 to 9223372036 s and no fault, everything is closed. No backend is ever closed twice. A request is served with the backend opened for its own connection and ticket, which is open unless the ticket was canceled; a connection has at most one open backend per ticket. Once the connections that used a ticket ended without fault, its status shows no connections.", "quantifier": "all sequences of steps of any number of connections and tickets, all outcomes of opening, allocating, closing", "why_tests_cant": "tests open and close a few connections, one after the other, without faults", "anchors": ["ovirt_imageio/_internal/backends/__init__.py:get", "ovirt_imageio/_internal/backends/__init__.py:Context", "ovirt_imageio/_internal/auth.py:Ticket.add_context", "ovirt_imageio/_internal/auth.py:Ticket.remove_context", "ovirt_imageio/_internal/auth.py:Ticket.cancel", "ovirt_imageio/_internal/http.py:Connection.finish", "ovirt_imageio/_internal/http.py:Context"]}
{"id": "C83", "title": "A sparse stream restores the image it was made from", "statement": "The sparse-stream programs: download writes a stream in the documented format (metadata with the size of the image, one frame for every extent of the image, or for every dirty extent when incremental, with the bytes of the image, the stop frame), and does not change the image. upload of such a stream writes its frames in order and flushes them if it succeeds; in any case nothing outside of the ranges of the frames changes, and nothing at all if the image is smaller than the size in the metadata. A full backup restored to an image that is not smaller makes the image begin with the same bytes and leaves the rest as it was; an incremental backup does the same if every difference is reported dirty. A stream that was cut is never restored successfully unless only part of the last 17 bytes of the stop frame is missing. Both succeed with servers that do what they are asked. Numbers of 64 bits are written as 16 digits and read back. The size in the metadata is that of the data frames for full backups.", "quantifier": "all images, extents reported by the server, metadata formats, frames, truncations, outcomes of the network and the servers", "why_tests_cant": "the examples have no tests; tests could stream a few images and cut a few streams", "anchors": ["examples/sparse-stream:download", "examples/sparse-stream:upload", "examples/sparse-stream:read_frame", "examples/sparse-stream:dump_metadata", "ovirt_imageio/client/_api.py:ImageioClient"]}
{"id": "C84", "title": "Copying a libvirt volume", "statement": "The libvirt-stream program copies the stream of a volume to an image. If it succeeds, every run of data and every hole of the stream was written in order and flushed, and the image after the size of the volume was zeroed; if holes occur only at the end, the image is the volume followed by zeros, and the progress is complete. A volume larger than the image is refused without changes, and nothing outside of the data, the holes and the rest of the image changes in any case. Errors of libvirt, of the client and of closing them are not lost. It succeeds with a stream and a server that do what they are asked.", "quantifier": "all streams, sizes of the pieces libvirt sends, errors of libvirt, the network and the server", "why_tests_cant": "the examples have no tests and need libvirt; a test would try a few volumes", "anchors": ["examples/libvirt-stream:iter_frames", "examples/libvirt-stream", "ovirt_imageio/client/_api.py:ImageioClient"]}
{"id": "C85", "title": "The connection of an NBD client", "statement": "When a session of an NBD client ends, however it ends, its socket was closed exactly once. The server was told that the session ends, once and after everything else that was sent: with CMD_DISC if the client was created, with OPT_ABORT if the handshake failed. Closing the client again, or using it after closing, sends nothing. A session succeeds only if creating the client and the code using it succeeded, and the exception of the code is the one that is raised. A connection that failed with a protocol error is not used again.", "quantifier": "all handshakes, sequences of commands (also closing the client and using it after that), and failures of connecting, sending, receiving, shutdown and close", "why_tests_cant": "tests use working servers and break the connection at a few places", "anchors": ["ovirt_imageio/_internal/nbd.py:372-415", "ovirt_imageio/_internal/nbd.py:466-516", "ovirt_imageio/_internal/nbd.py:893-944", "ovirt_imageio/_internal/nbd.py:1245-1255"]}
{"id": "C86", "title": "The Go program maps an image", "statement": "Extents of the NBD backend, if it succeeds, gives extents next to each other from 0 to the size of the image, whatever the server replies; if the server tells the truth the zero flag of the extent of every byte is right, and with replies without empty extents no extent is empty and neighbours have different flags. It fails only with an error of a request other than EINTR, asks for at most 1 GiB inside of the image, and ends if the server replies with an extent that is not empty. The map command exits with 0 only if it printed a JSON list of these extents and closed the connection; otherwise it prints nothing and closes the connection.", "quantifier": "all images, sequences of replies of block status (several contexts, errors, interruptions, extents that are cut or too long), failures of connecting and of the output", "why_tests_cant": "tests map a few images of qemu-nbd", "anchors": ["go/ovirt-img/nbd/nbd.go:29-62", "go/ovirt-img/nbd/nbd.go:99-163", "go/ovirt-img/nbd/nbd.go:205-241", "go/ovirt-img/map.go:16-64"]}
{"id": "C87", "title": "The Go backends read like io.ReaderAt", "statement": "ReadAt of the NBD and HTTP backends follows io.ReaderAt: the n bytes it reports are those of the image at the offset, n less than the buffer comes with an error, EOF only if the range ends after the image, with all bytes up to the end. Requests stay inside of the image. For any sequence of calls of the HTTP backend Size is the size of the image and Extents gives the extents reported by the server at some time; nothing panics and the image does not change. With a server that does what it is asked, reading inside of the image succeeds and reading over or after the end gives EOF.", "quantifier": "all images, buffers, offsets (negative ones too), failures of the server and the connection, sequences of calls", "why_tests_cant": "tests read a few ranges of one image from working servers", "anchors": ["go/ovirt-img/nbd/nbd.go:166-186", "go/imageio/http/http.go:45-162", "go/imageio/extent.go:7-53"]}
{"id": "C88", "title": "The texts of JSON carry the values", "statement": "A value written with json.dumps - an answer of the server, a PATCH message, a ticket sent by the admin client, the json: image name given to qemu-img and qemu-nbd, a line of progress - is a JSON text of that value by RFC 8259, printable ASCII on one line, and json.loads reads the same value back. json.loads reads any RFC 8259 text, however it is written; a text has one reading; of equal names the last counts. For any file name QEMU is told exactly that file, format and range of bytes; every update of the JSON progress is one line whose JSON holds the numbers and the phase, for any phase.", "quantifier": "all values, strings of any code points, texts of JSON with any white space and escapes, file names, sequences of progress updates", "why_tests_cant": "tests use a few names and values without quotes, surrogates or control characters", "anchors": ["ovirt_imageio/_internal/http.py:521-532", "ovirt_imageio/_internal/backends/http.py:463-525", "ovirt_imageio/_internal/qemu_nbd.py:148-173", "ovirt_imageio/client/_api.py:468-482", "ovirt_imageio/client/_ui.py:59-72", "ovirt_imageio/admin/_api.py:64-104"]}
{"id": "C89", "title": "Progress takes one row of the terminal", "statement": "The line of TextFormat.draw tells the percents (---- without size) in four columns, the bytes transferred and the average rate to the nearest hundredth of the right unit, the seconds to the nearest hundredth, and the phase. All the lines drawn by a progress bar are shown in one row of the terminal: each replaces the one before completely, whatever was shown there, no other row changes, and after close() the cursor is in the next row, below the last progress.", "quantifier": "every sequence of updates, phases and sizes by any threads, every content and width of the terminal", "why_tests_cant": "tests compare what is written for a few updates; that no part of an older line is left depends on every pair of lines, the numbers in them and the terminal", "anchors": ["ovirt_imageio/client/_ui.py:TextFormat.draw", "ovirt_imageio/client/_ui.py:OutputFormat._write_line", "ovirt_imageio/_internal/util.py:humansize"]}
{"id": "C90", "title": "The idle time of a ticket is the time since its last use", "statement": "The idle_time of a ticket is 0 while an operation uses it. When it is not 0, there was a moment during the call at which no operation was using the ticket, and it is the number of seconds since the last operation ended (or the ticket was added, or OPTIONS touched it), up to rounding to seconds and the time the call itself takes. It is never negative, and never longer than the time since the ticket was added.", "quantifier": "every number of threads, every interleaving of operations starting and ending, touches, the reader of the idle time and the clock", "why_tests_cant": "tests use one thread and sleep between an operation and the call; the engine asks at any time, also between the end of an operation and the recording of it", "anchors": ["ovirt_imageio/_internal/auth.py:Ticket.idle_time", "ovirt_imageio/_internal/auth.py:Ticket.touch", "ovirt_imageio/_internal/auth.py:Ticket._remove_operation"]}
{"id": "C91", "title": "A termination signal ends a copy", "statement": "After SIGINT or SIGTERM no worker starts another request: at most the request each worker had started is completed, and every other byte of the destination stays as it is. A signal that came before the copy leaves the destination untouched. The copy ends after a bounded number of steps, it fails with TerminatedBySignal for the first signal, and the tool exits with 128 plus its number. A signal never makes a copy that is not complete look successful.", "quantifier": "every number of workers, every plan of requests, every interleaving of the workers, the main thread and any number of signals, every result of the storage", "why_tests_cant": "the test sends one signal at one moment of a copy with one server; a signal can come between any two steps of any worker", "anchors": ["ovirt_imageio/client/_app.py:check_terminated", "ovirt_imageio/client/_app.py:_handle_signal", "ovirt_imageio/client/_io.py:Worker._run", "ovirt_imageio/client/_io.py:Executor.stop", "ovirt_imageio/client/_tool.py:main"]}
{"id": "C92", "title": "The shown configuration is the one that is used", "statement": "What --show-config prints is a JSON text in which any reader of JSON finds exactly the sections and options of the configuration, each option with its value and type, under the name that sets it in a configuration file. Given back as a configuration file, it loads to the same configuration. The logging module gets every option as the text of its value, under the name without the keyword prefix, and no other options.", "quantifier": "every configuration whose attributes have proper names, every set of files that loads, every text in a value, numbers of any size", "why_tests_cant": "the test compares one output; values and names come from files of users and from new options", "anchors": ["ovirt_imageio/_internal/configloader.py:to_dict", "ovirt_imageio/_internal/configloader.py:_obj_to_dict", "ovirt_imageio/_internal/server.py:show_config", "ovirt_imageio/_internal/server.py:configure_logger"]}
{"id": "C93", "title": "qemu-img is asked about the image that is used", "statement": "Every command for qemu-img is read by it as meant: the format, the backing file and its format, the size and the flags are those of the caller, each once, and the files are those of the caller. info and measure ask about the file, or about the bytes of the last member with the name in the tar file, and return what qemu-img printed with the place of the member; checksum and extents open exactly this part of this file, read only, in the format that was reported. compare succeeds only if qemu-img reports equal images. download creates an image of the size of the disk.", "quantifier": "every name of a file and of a member, every tar file, every size, every combination of optional arguments, every answer of qemu-img", "why_tests_cant": "tests use a few plain names and one tar file; names of files come from users and can look like options or like protocols", "anchors": ["ovirt_imageio/_internal/qemu_img.py:create", "ovirt_imageio/_internal/qemu_img.py:info", "ovirt_imageio/_internal/qemu_img.py:measure", "ovirt_imageio/_internal/qemu_img.py:compare", "ovirt_imageio/client/_api.py:info", "ovirt_imageio/client/_api.py:measure", "ovirt_imageio/client/_api.py:extents"]}
{"id": "C94", "title": "A started server is reached at its address, and only there", "statement": "While a service is serving, a client that connects to the address in the configuration is answered by this service, also after an earlier process was killed and whatever file it left; for an empty address the configuration gets the random one, for port 0 the port of the kernel. A name never leads to a server that was not started for it, and what one server does has no effect for the clients of other names. After a shutdown the path is gone and no client waits for an answer. A failing start does not disturb a running server. A TCP server starts exactly when the host has an address that is not link local; it is bound to an address of the host, IPv4 if preferred and available, and not to a link local one.", "quantifier": "any number of servers in any processes, every order of their system calls, every failure of them, every file made or removed by others, every host and list of addresses", "why_tests_cant": "tests start one server at a time on a fresh path, and the addresses of a host are those of the test machine", "anchors": ["ovirt_imageio/_internal/uhttp.py:Server", "ovirt_imageio/_internal/uhttp.py:UnixHTTPConnection", "ovirt_imageio/_internal/http.py:Server.create_socket", "ovirt_imageio/_internal/http.py:find_addresses", "ovirt_imageio/_internal/services.py:LocalService"]}
{"id": "C95", "title": "The image of a ticket is opened for what the ticket permits", "statement": "The backend of a ticket gets one descriptor: for the file whose name was put into the URL, for direct I/O, readable, and writable exactly if the ticket permits writing. Opening and cloning change no file, and a failing open leaves no descriptor behind. The backend has the sparse option of the ticket and the limits of the configuration; a block device gets the backend for block devices; the module is that of the scheme, with the mode, the options, the CA file and the buffer of the configuration. A clone has the same path, access and settings.", "quantifier": "every ticket, configuration, state of the file system, name of a file, and every failure of the system calls", "why_tests_cant": "tests open a few plain files in a temporary directory; block devices, directories and failing calls need root or mocking", "anchors": ["ovirt_imageio/_internal/backends/__init__.py:get", "ovirt_imageio/_internal/backends/file.py:open", "ovirt_imageio/_internal/backends/file.py:Backend._clone", "ovirt_imageio/_internal/util.py:open"]}
{"id": "C96", "title": "The disk id of the command line is the UUID that was given", "statement": "What ovirt-img gives to the engine as disk id is a UUID in the usual form with small letters. A UUID written in any of the usual ways, in either case, is the one with the same digits, and two texts name the same disk exactly if their digits have the same values. A text with a digit missing or too many, or with a character that no UUID has, is refused.", "quantifier": "all texts, all Unicode tables of digits and white space", "why_tests_cant": "The tests have a few ids; which texts the parser takes besides UUIDs, and that no two different ids give the same disk, is about all texts.", "anchors": ["ovirt_imageio/client/_options.py:363-384", "ovirt_imageio/client/_options.py:404", "ovirt_imageio/client/_download.py:28-31", "ovirt_imageio/client/_upload.py:53-57"]}
{"id": "C97", "title": "The Go program opens the image that is named, read only", "statement": "ovirt-img (Go) opens the existing file with the given name, or the server with the given URL, or the file of a file URL whose path is quoted in the usual way, and nothing else. Files are opened with qemu-nbd, read only and with the format found by qemu-img. Other names are errors and run nothing. A failure leaves no connection behind.", "quantifier": "all names and URLs, file systems, outputs of qemu-img and results of libnbd", "why_tests_cant": "There are no tests of this code; which names are taken as URLs, quoting of arbitrary bytes, and the cleanup after each failing call are about all inputs.", "anchors": ["go/ovirt-img/backend.go:19-62", "go/ovirt-img/nbd/nbd.go:29-90", "go/ovirt-img/qemuimg/qemuimg.go:17-50", "go/imageio/http/http.go:26-42"]}
{"id": "C98", "title": "The version of qemu-nbd is the installed one", "statement": "qemu_nbd.version() gives the three numbers that qemu-nbd prints after its name, compared as numbers, so that the depth of allocation is asked of 5.2.0 and newer only and older ones are refused for images without their backing chain. Whatever is printed, a version only comes from the second word of the first line. qemu-nbd is run until its version is known and then never again; errors are not kept. Updates and other forms of the version are noticed.", "quantifier": "all outputs of qemu-nbd, versions, servers and sequences of calls", "why_tests_cant": "A test machine has one qemu-nbd, and the cached result cannot change during a test run; other versions and outputs are not seen.", "anchors": ["ovirt_imageio/_internal/qemu_nbd.py:301-312", "ovirt_imageio/_internal/qemu_nbd.py:136-146"]}
{"id": "C99", "title": "Copying with the memory backend and streams with short reads", "statement": "read_from and write_to of the memory backends copy exactly the next length bytes of the reader, with a buffer of any size, and never write what was in the buffer before. UnbufferedStream gives all bytes in order, at most as many as asked for, and nothing only at the end; readinto leaves the rest of the buffer as it was.", "quantifier": "all data, chunks, lengths, buffers and sequences of reads", "why_tests_cant": "Tests copy from readers that fill the buffer; short reads at every place, and what is left in a reused buffer, are about all readers and histories.", "anchors": ["ovirt_imageio/_internal/backends/memory.py:199-222", "ovirt_imageio/_internal/util.py:124-155"]}
