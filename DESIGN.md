# Formal model of ovirt-imageio

Model and proofs live in `rocq/theories`. An area X has up to four files:

- `XModel.v`: definitions only, each citing the lines of /repo it models.
- `XSpec.v`: the specification, independent of the model's helpers (older areas
  have it at the start of `XTheorems.v`).
- `XProofs.v`: lemmas.
- `XTheorems.v`: the theorems, each with a concrete case (`Example`), and
  `Print Assumptions`.

A theorem named `..._partial` proves a part of its property; what is missing is
said in the comment above it. A theorem named `..._refuted` shows, by a witness,
that a claim does not hold of the code; these are the findings listed below.

## How each kind of code is modelled

- Sequential code is a function over Coq's Z, lists of bytes and records. What
  the environment decides (short reads, errors, what the peer sends) comes from
  an oracle, and theorems quantify over all oracles. An oracle's answer is
  limited to what the contract of the call allows (for example a count between
  0 and what was asked for).
- Loops which Coq cannot see terminate take fuel; there is a theorem that enough
  fuel always exists, or the result without enough fuel is kept apart (`None`),
  and theorems speak about the other results.
- Threads are labelled transition systems: one step is one critical section, or
  one action outside of locks. Properties are inductive invariants or statements
  on traces of visible events, for all interleavings and any number of threads.
- A witness of a concurrency finding is a list of labels executed by the
  transition function (`vm_compute`).
- Python: `int` is Z; slices clamp as in Python; exceptions are a sum type with
  as many cases as the code distinguishes; strings are lists of characters (Latin-1
  for headers and configuration, code points for URLs and JSON).

## Plan and status per property

- **C01** Reported transferred bytes are the exact size of the union of the transferred ranges. *Measure*, proved: measure.py branch by branch over ranges; spec: number of offsets covered; induction on the merge loop.
- **C02** Transfer accounting is order independent and never decreases. *Measure*, proved: the list kept is canonical and canonical lists of equal sets are equal, so the order of ranges does not matter.
- **C03** Authorization is exact. *Auth*, proved: the store as a map with a clock; exact condition of authorization in terms of the history of calls.
- **C04** No operation starts on a canceled ticket, and cancellation is permanent. *Ticket*, proved: transition system of run/cancel/contexts as lock protected steps, any number of threads; inductive invariant, stated on traces.
- **C05** A successful ticket removal means the storage is released. *Ticket*, partial: same system; invariant on contexts, ongoing operations and the event. The extents and opening windows are refuted.
- **C06** No lost wakeup: a waiting removal is released when the last operation ends. *Ticket*, proved: same system; a canceled ticket without operations has its event set, so the waiter can always continue.
- **C07** A ticket in use does not expire before its timeout since the last activity. *Auth*, partial: arithmetic on the clock; touch after extend is refuted.
- **C08** GET sends exactly the requested bytes of the image. *Ops*, proved: Read as a loop over an oracle of backend counts; spec is a slice of the image.
- **C09** A failing GET never sends wrong bytes. *Ops*, proved: same model, what was sent before a failure.
- **C10** PUT stores exactly the request body at the requested offset. *Ops*, proved: Write over an oracle of body reads and backend writes; spec is an update of the image.
- **C11** An interrupted PUT changes only the requested range. *Ops*, proved: same model, failures leave a prefix written.
- **C12** PATCH zero zeroes exactly the requested range. *Ops*, proved: Zero over an oracle of progress.
- **C13** Unaligned file writes change only the bytes written. *File*, partial: write and _write_unaligned over a POSIX file with a kernel oracle.
- **C14** Direct I/O requests are always aligned. *File, Ops*, proved: the log of system calls; every call aligned.
- **C15** Zeroing a file does not depend on the file system features. *File*, proved: zero and its fallbacks over the kernel oracle with errno cases.
- **C16** The memory backend is a growable byte array. *Memory*, partial: bytearrays shared between clones; refinement of call sequences to a growable array.
- **C17** The NBD backend transfers exactly the requested bytes. *NbdBackend*, proved: the backend over the byte level NBD client and an abstract compliant server; all call sequences.
- **C18** Range header parsing. *Header*, partial: character level parser against a grammar, both directions.
- **C19** Content-Range header parsing. *Header*, partial: character level parser against a grammar, both directions.
- **C20** No request touches bytes outside of the ticket range. *Images*, partial: handler from the request to the operations run; bytes touched within the ticket. Open ended GET after the end is refuted.
- **C21** The server never reads a request body beyond its Content-Length. *Http*, partial: request body with a socket oracle, arbitrary handler programs.
- **C22** Keep-alive connections stay in sync. *Http*, partial: connection loop over arbitrary handlers; the stream position after a response.
- **C23** Request routing and error mapping. *Http*, proved: router over arbitrary routes, exact; the unanchored pattern is a finding.
- **C24** Extents cover exactly the requested range. *Extents*, partial: nbdutil.extents with a server oracle, merged(), Backend.extents.
- **C25** Extents report the flags of every byte. *Extents*, proved: same model; flags of every byte.
- **C26** NBD commands are encoded as the protocol demands. *Nbd*, proved: byte level encoding of commands, decoded by an independent reader of the protocol.
- **C27** NBD structured reads assemble the data correctly. *Nbd*, proved: byte stream parser against an encoder of chunk lists of a compliant server.
- **C28** NBD request errors leave the connection usable. *Nbd*, partial: same; what is left in the stream after an error.
- **C29** Block status replies are decoded exactly. *Nbd*, proved: same; payload of block status chunks against the layout of the protocol, malformed ones refused.
- **C30** Checksum blocks partition the image. *Blkhash*, proved: split() as a function; covers the range, limits of blocks.
- **C31** Checksum depends only on the image content. *Blkhash*, partial: digest as a parameter; result is a function of image and block size, for every merge order of extents.
- **C32** Zero detection is exact. *Blkhash*, proved: is_zero of ioutil.c over byte lists (the memcmp trick), exact.
- **C33** Client transfer requests cover the extents exactly. *ClientIo*, proved: _split generator, exact cover of the extents.
- **C34** A successful client copy gives an identical image, for every schedule. *ClientIo*, partial: transition system of main thread, workers and queue; content after success for all schedules.
- **C35** A failed worker never looks like success. *ClientIo*, proved: same system with failing calls; a copy that returns has executed every request.
- **C36** The client request queue is a bounded FIFO that does not lose requests and does not deadlock. *ClientIo*, partial: queue with one condition and waiters in order; FIFO, bounded, no deadlock up to 32 workers, deadlock beyond (refuted).
- **C37** nbdutil.copy gives an identical image. *NbdCopy*, partial: reader and writer threads with two queues.
- **C38** Extents survive the HTTP API. *HttpBackend*, proved: extent records to JSON objects and back, over the EXTENTS handler.
- **C39** IPv6 quoting and NBD addresses round trip. *Url*, partial: quoting, address classes, URL text and its parser.
- **C40** Flush on PUT is durable. *Ops*, proved: event log of operations: flush after the data and before success.
- **C41** HTTP backend requests address exactly the caller range. *HttpBackend*, proved: messages of the backend, composed with the server of Images; the backend together with the server is an array.
- **C42** Ticket validation. *Control*, partial: JSON values, validation of ticket descriptions.
- **C43** Block size detection is sound. *File*, partial: detection loop over a storage oracle.
- **C44** TLS minimum version. *Config*, partial: decision function; refuted for the default configuration.
- **C45** Size options. *Config*, proved: character level parser against a grammar of sizes.
- **C46** Option priority. *Config*, proved: namespace merge; relation giving the value of each option; errors exact.
- **C47** Configuration files override in order. *Config*, proved: files as parsed sections; value of each option, errors, order of files.
- **C48** A successful request does exactly what its headers say. *Images*, proved: handlers over operations; result, status and headers of successful requests, 416 outside of the range, termination.
- **C49** OPTIONS reports the permitted methods. *Images*, proved: options handler over authorization answers.
- **C50** NBD replies to other requests are refused. *Nbd*, partial: replies with other handles.
- **C51** A successful client copy reports the whole image as progress. *ClientIo*, proved: sum of progress updates on all schedules.
- **C52** Control API over the ticket store. *Control*, partial: the ticket handlers over the store, one request at a time.
- **C53** Overlapping control requests and transfers. *AuthRace*, proved: control requests interleaved with transfers; what a successful DELETE means.
- **C54** The HTTP backend and the server form one array. *HttpBackend*, proved: sequences of calls on clones, composed with the server; failures, flush, success.
- **C55** Feature detection of the HTTP backend. *HttpBackend*, proved: connect: features from OPTIONS, old servers.
- **C56** NBD handshake. *Handshake*, proved: newstyle_handshake against a grammar of the handshake, both directions; what the client knows as a relation over the answers.
- **C57** Failed NBD handshakes. *Handshake*, partial: all failing runs: exceptions, what was sent, ABORT last. Flags first is refuted.
- **C58** Opening and using an NBD image. *Handshake*, proved: composition of connect with the theorems of NbdBackend and Extents.
- **C59** Uploads. *Transfer*, proved: upload(): a simulation of the threads with HTTP backends by those of ClientIo with an abstract destination; content, durability, progress, failures, termination.
- **C60** Downloads. *Transfer*, proved: download(): the same in the other direction, with the extents asked for from the server.
- **C61** Requests sharing one image. *Storage*, proved: requests as programs of system calls (a free monad, equal to the models of File when run alone); threads interleave at system calls; every call of a request is in its blocks and depends on them only, so each thread behaves as alone (noninterference). States in the middle: the same as a run in which the kernel fails from there on.
- **C62** Writers of distinct byte ranges. *Storage*, partial: refuted by an execution; the provable part is C61.
- **C63** ovirt-img: success means that engine confirmed it. *Ovirt*, proved: the commands as programs in a monad of calls answered by an oracle; postconditions by a small calculus (wp) describing the possible traces.
- **C64** ovirt-img: the transfer is ended exactly once. *Ovirt*, partial: the same; counting of events in the possible traces; the general claim is refuted by two executions.
- **C65** ovirt-img: polling ends. *Ovirt*, proved: each iteration of a loop takes at least a second of the time allowed; the result is shown to be independent of the fuel.
- **C66** ovirt-img upload-disk: the new disk fits the image. *Ovirt*, proved: every event of an upload speaks about the disk prepared; the name by a separate specification of file names.
- **C67** Checksum requests. *Checksum*, partial: the handler over the model of Blkhash; texts of integers by a separate grammar; the reads by an invariant of the loop.
- **C68** Verifying a transfer with checksums. *Checksum*, proved: composition of Transfer (content after an upload) and Blkhash (checksum of content); digests of one length can be cut out of the concatenation.
- **C69** End to end transfers. *Chain*, proved: composition: the extents of the modelled backends meet the assumptions of Transfer and Checksum, which gives theorems without assumptions on the extents.
- **C70** The daemon terminates when asked, and only then. *Daemon*, partial: transition system of the main thread, signals, handlers and service threads; inductive invariant, a measure for termination, witnesses for the lost signals.
- **C71** Dropping privileges. *Daemon*, proved: Server.__init__ as a program of system calls over POSIX credentials and file owners, any call may fail; log of calls with the credentials at that time.
- **C72** Configurations that start. *Daemon*, partial: the same program: success for every usable configuration, and the converse.
- **C73** Transfers leave nothing behind. *QemuNbd*, partial: opening and closing as programs over calls that may fail in any way, with a log of calls; triples about the log; witnesses for the processes left.
- **C74** qemu-nbd shows the disk that was asked for. *QemuNbd*, partial: the options of the process as block nodes, with a meaning given by a file system and any decoder of formats.
- **C75** Number of connections. *QemuNbd*, partial: the number of workers as an invariant of the transition system of ClientIo.
- **C76** ImageioClient is an array of bytes. *Api*, proved: the methods over the HTTP backend and server of C54, a closed backend as a backend without a server; induction over the calls.
- **C77** The progress bar shows the transfer. *Progress*, partial: calls under the lock as a list, lines drawn as data; Python floats as correctly rounded dyadic numbers (FloatLib, no library); induction over the calls, error bounds in Q.
- **C78** The clock measures. *Clock*, partial: the ordered dict as a list, blocks under run() as arbitrary functions; induction over the calls against sums over the log of successful calls.
- **C79** The admin client manages the tickets it names. *Admin*, partial: the client over the dispatch of paths, the handlers of Control and the profile handler, with every loss of a request or answer; ids of the class reach the handler as they are, then the theorems of Control apply.
- **C80** The client reads the response that was sent. *Reply*, partial: header lines as bytes with UTF-8; the spec is a parser of the bytes and the last assignment to a name; induction over the assignments, then over the lines.
- **C81** Web pages can upload and download. *Reply*, partial: the decorator as assignments before those of the method; the last assignment to each name.
- **C82** What a connection opened is closed when it ends. *Resource*, partial: labelled transition system of connections and tickets, closing as an oracle; inductive invariant: every open context is in its ticket, and the connection has its closer or one of the four faults was seen.
- **C83** A sparse stream restores the image it was made from. *Stream*, partial: both programs over the client of Api and the server of HttpBackend; Python's %016x and int(.., 16) as functions; induction over the frames with the array semantics of C76; cut streams by cases of where the cut is.
- **C84** Copying a libvirt volume. *Libvirt*, partial: the stream as segments of data and holes with an oracle for the size of each piece; iter_frames as the list of its frames; invariant: the frames yielded and the buffer are the runs before the rest of the stream; the client of Api.
- **C85** The connection of an NBD client. *Session*, partial: state and exception monad with an oracle for the outcome of every call of the socket, and the log of the calls; what the commands send and receive is a list; invariant: while the client is live the log has no goodbye and no close, and once it is closed the socket is closed and the log ends with the goodbye.
- **C86** The Go program maps an image. *Go*, partial: functions with an oracle for what libnbd does in every try of a request: the calls of the callback and the error; 32 and 64 bit arithmetic; the entries collected are pairs tiling the range, merged pairs tile it too; the output is checked against a grammar of JSON.
- **C87** The Go backends read like io.ReaderAt. *GoHttp*, partial: the backend's attributes with any server answering messages, instantiated with the server of ImagesModel; what encoding/json does with values of the wrong type; connections breaking inside of a body; invariant over calls: the size is unknown or right, the extents are unknown or came from the server. The NBD part is in area Go.
- **C88** The texts of JSON carry the values. *Json*, partial: json.dumps and json.loads of Python's library as functions on code points, with the dicts the code builds; the RFC's grammar as inductive relations between values and texts; by mutual induction on the grammar the reader gets the value, by induction on values what is written is in the grammar.
- **C89** Progress takes one row of the terminal. *Term*, partial: TextFormat.draw as a function to code points, with float rates and rounding; a terminal (cells, cursor, carriage return, newline, wrapping); induction over the lines drawn, bounds of the lengths of numbers, composed with the bar of C77.
- **C90** The idle time of a ticket is the time since its last use. *Idle*, partial: A transition system with any number of threads: time passing, operations, the two steps of touch(), the three reads of idle_time; an inductive invariant relating the access time, the ends of operations and the pending touches.
- **C91** A termination signal ends a copy. *Signal*, partial: The transition system of ClientIo with the signal flag and the look at it before each request; an invariant linking the flag, the exceptions of workers and the result, and one linking the requests completed after the signal to those started before it.
- **C92** The shown configuration is the one that is used. *Show*, proved: to_dict, json.dumps with an indent and RawConfigParser.read_dict as functions; the output is read with the grammar of JSON of C88, the file with the loader of C47 and the parser with the lookups of the logging module.
- **C93** qemu-img is asked about the image that is used. *QemuImg*, partial: The commands as lists of arguments, read back by a small grammar of getopt and of the names of images in QEMU; the answers of qemu-img are an oracle that prints objects of JSON; tar files are lists of members.
- **C94** A started server is reached at its address, and only there. *Listen*, partial: Labelled transition system of servers, files and abstract names with one step per system call, any number of servers and an environment; invariants over all executions. Choosing the TCP address as functions of the answer of the resolver.
- **C95** The image of a ticket is opened for what the ticket permits. *Open*, partial: State of files and open descriptors with oracles for failing calls; urlparse as in Url.
- **C96** The disk id of the command line is the UUID that was given. *Uuid*, partial: uuid.UUID and str(UUID) as functions on code points; what Python knows about other scripts is a parameter.
- **C97** The Go program opens the image that is named, read only. *GoOpen*, partial: url.Parse of Go on bytes, the calls as a list of events with oracles for the file system, qemu-img and libnbd.
- **C98** The version of qemu-nbd is the installed one. *Version*, partial: Texts as lists of code points, splitlines, split and int() of Python, the cache as a state over a sequence of calls.
- **C99** Copying with the memory backend and streams with short reads. *Feed*, partial: A reader is a list of chunks, one for each call at most, so any sequence of short reads; the buffer is threaded through the copy.

## Findings

All of these are proved as `..._refuted` (or `..._wrong`) theorems of the model,
unless marked (read), which were seen while reading and are not modelled.

Server, data path
- GET with an open range (`bytes=N-`) starting after the end of the ticket
  succeeds with 206 and sends image bytes after the ticket's end and old buffer
  content (`get_sends_only_ticket_bytes_refuted`).
- `Range: bytes=-0` selects the whole image; numbers of more than 4300 digits raise
  ValueError instead of 416/400; Content-Length accepts `+1_0` (Header).
- A GET request with a body, or a request with an invalid Content-Length, leaves
  the body in the connection, which is then parsed as a request; an error reported
  while Content-Length is not valid is not answered at all (Http).
  A negative read size reads beyond the body.
- Route patterns are not anchored at the end: any path starting with a valid one
  is served (`unknown_path_is_rejected_refuted`).
- The checksum operation ignores the count of readinto(): a short read gives a
  checksum of old buffer content; the plain pass never ends if the file shrinks
  (Blkhash). Checksum and extents requests ignore the ticket size (read).
- Transfer-Encoding: chunked bodies are not read (read).

Tickets
- A removal can succeed while a connection opens a backend, or in the middle of
  an extents request (Ticket). The backend opened but not attached stays open.
- Extending a ticket is lost when an operation ends (`touch_never_shortens_refuted`).
- PUT /tickets/id ignores the id of the URL; booleans pass as integers, negative
  sizes and unknown operations are accepted; PATCH with JSON that is no object
  is a server error; remove_timeout 0 makes DELETE answer 204 for a ticket in use
  (Control).
- Two overlapping DELETE requests: the second fails with 500. A ticket added while
  the old one is being removed is removed, though in use. Replacing a ticket by PUT
  and DELETE /tickets/ leave operations running that nobody can stop (AuthRace).

Storage backends
- file: the read-modify-write of one block ignores counts (short write reported
  done, short read destroys neighbours); an empty write at the end adds a block;
  unsupported storage is reported by an AttributeError (File).
- file, block devices: unaligned writes read, change and write a block without a lock,
  and several writers are accepted (max_writers), so writes to distinct byte ranges in
  the same block lose data (`parallel_distinct_ranges_refuted`); docs/images.md
  promises distinct byte ranges are enough (Storage).
- memory: reading after the end gives a negative count and removes bytes of the
  caller's buffer; a clone of an empty backend does not share; an empty write after
  the end extends; negative positions are accepted (Memory).
- nbd: clone() drops `sparse` (NbdBackend). Extents of an empty export fail;
  dirty extents without base:allocation raise KeyError; neighbours of the same
  kind are possible (Extents).
- nbd client: bytes not covered by chunks are reported as read; a simple error
  reply to block status, an error chunk that is not last, and error codes from
  2^31 on leave the rest of the reply in the connection; the handle of a simple
  error reply is not checked (Nbd). Handshake: ABORT is sent without the client flags
  when the first message is wrong; the name of the dirty bitmap is not checked; a
  minimum block size of 0 is accepted (Handshake).
- http: empty calls raise; extents and size are cached and become stale; write_to
  ignores the writer's count; read_from reports all bytes after a broken pipe if
  the server answers 200; size() of a server without extents is an IndexError
  (HttpBackend).
- NBD URLs do not round trip for export names or socket paths with delimiters;
  port 65535 is rejected (Url).
- Checksum requests (and extents requests) are not limited to the size of the
  ticket: the reply depends on bytes after it (checksum_outside_ticket_refuted). The
  algorithms offered are hashlib.algorithms_available, some of which always fail
  with a server error, as shake_128 (offered_algorithm_refuted). A checksum counts
  as transferred bytes of a read ticket. Unlike other requests, a checksum request
  without access does not close the connection (Checksum).

Client
- copy() deadlocks with more than 32 workers; with buffer size 0 it does not end;
  counts of readinto/write/zero are ignored (ClientIo).
- nbdutil.copy waits forever after a failing write while its queue is full, and
  leaks the writer thread after a failing read (NbdCopy).
- Options: sizes accept spaces, signs and underscores; texts of sizes from 1024 TiB
  on are wrong by a factor of 1024 (Config).
- An upload to a disk larger than the source leaves the end of the disk as it was
  (Transfer, upload_content).
- ovirt-img leaves the transfer behind, neither cancelled nor finalized, when engine
  fails to answer one request for its phase or host, or when an upload is
  interrupted by something that is not an Exception (transfer_closed_refuted). A
  disk added for an upload stays when the upload fails before the transfer is made
  (disk_left_refuted). finalize_transfer waits for its time out in phases that
  cannot become final, such as paused or cancelled (Ovirt).

Configuration
- The TLS minimum is lowered to TLS 1.0 when enable_tls1_1 is off, the default;
  switching it on raises the minimum (Config).

Daemon
- A signal that arrives after the check of `running` and before `signal.pause()`
  sleeps is handled, but the daemon sleeps until another signal comes
  (`term_lost_refuted`); one handled before `start()` is forgotten
  (`early_term_lost_refuted`).
- When the socket of a service cannot be removed, `stop()` leaves this service and
  the next ones running until the process exits (`services_left_refuted`).
- Port 65535 is refused (`last_port_refuted`); an empty control.socket, which means
  a random address, always fails in chmod (`random_control_socket_refuted`).

QemuNbd
- `qemu_nbd.run` calls `start()` outside of the try block: when connecting to the
  socket fails with anything but ECONNREFUSED or ENOENT, the process is left running
  (`process_left_refuted`). A killed process that does not end in time is not reaped
  (`slow_kill_refuted`).
- With offset and size only qcow2 gets a format node: a disk of another format in an
  OVA file, such as vmdk, is uploaded without decoding it (`member_format_refuted`),
  and `backing_chain=False` is ignored (`member_chain_refuted`).
- An upload with `max_workers=0` starts one worker, which needs a second connection
  to a process that allows one (`no_workers_refuted`). A download uses one connection
  more than max_readers (`download_server_connections_refuted`).
- Read, not proved: `_open_nbd` never closes the connection of the backend it yields.

Progress bar
- 29 bytes of 100 are shown as 28%; a size set after the bytes were transferred
  shows 0% until the next update; sizes of 1 EiB or more are shown in PiB divided
  by 1024 once too often; 100% may be shown early for sizes over 8 PiB (Progress).

Clock
- Showing a clock with bytes transferred in zero seconds raises ZeroDivisionError; a
  running name shows the seconds of the current run with the ops of all (Clock).

Admin
- Client.del_ticket("") removes all tickets: the id is not checked and the URL
  without an id means all. An id is not quoted either: "a?b" and "%61" remove ticket
  "a" (Admin).
- add_ticket of a description without "uuid" raises KeyError, and ovirt-imageioctl
  shows a traceback; "ovirt-imageioctl mod-ticket" without the optional --timeout
  always fails with 400 (Admin).
- admin/__init__.py: a comma is missing in __all__ after "DEFAULT_CONF_DIR", so
  "from ovirt_imageio.admin import *" raises AttributeError (read, not modelled).

Reply
- The filename of a ticket is copied into content-disposition: with CR LF it adds
  header fields to the reply of a download, with a lone surrogate ("\ud800" in JSON)
  the header cannot be encoded and the connection is closed without a reply (Reply).
- When a download fails before its first byte, the error reply keeps content-range
  and content-disposition of the download (Reply).
- PATCH, extents and checksum replies have no CORS headers, and /info/ has CORS for
  GET but refuses the preflight request (Reply).
- DELETE of a ticket answers 204 with content-length 0, which RFC 7230 3.3.2
  forbids (read, not modelled).

Resource
- backends.get opens the backend before it allocates the buffer; if this fails (no
  memory), nobody closes the backend (no_buffer_refuted).
- inactivity_timeout is only checked to be an integer: with a negative one the first
  request of each connection fails with 500 and the backend stays open after the
  connection ended, with the connection in the status of the ticket; the second
  request succeeds (negative_timeout_refuted).
- A ticket added again with the same uuid while a connection uses it: the closer of
  the first ticket is overwritten, its backend stays open (replaced_ticket_refuted).
- If closing a file raises, the ended connection stays in the status
  (close_error_refuted), and canceling stops at the first context that fails to close
  (cancel_stops_refuted).

Stream
- data-size in the metadata of an incremental backup counts all data extents, also
  clean ones, which are not in the stream; documented is the number of bytes in data
  frames (data_size_of_incremental_backup_refuted).
- int(x, 16) accepts shorter numbers: a stream that was cut in the last 17 bytes, in
  the digits of the stop frame, is accepted (incomplete_stop_frame_refused_refuted).
  All the data is there, so nothing is lost.

Libvirt
- iter_frames does not advance the offset by the length of a hole (line 115 adds
  `length`, which is 0 there): data after a hole is written at the offset of the hole,
  and everything after it is moved. The copy succeeds (data_after_holes_refuted).

Session
- Client.__exit__ calls `log.exeption` (nbd.py:1255): when the code using the client
  raised and closing fails too, AttributeError is raised instead of the exception that
  the comment wants to keep (exception_of_user_code_refuted).
- A ProtocolError "failing entire connection" leaves the client in TRANSMISSION: the next
  command is sent on the same connection (failed_connection_is_closed_refuted).
- KeyboardInterrupt while CMD_DISC is sent leaves the socket open
  (interrupted_close_refuted).

Go
- Extents of the NBD backend loops for ever if a server replies with empty extents
  (go_extents_end_refuted); libnbd may refuse such replies.
- The map command ignores errors of writing (map.go:29-30): it exits with 0 after cut
  output (map_success_refuted).
- log.Fatalf in map.go:24-26 skips the deferred Close, and Connect and ConnectFile do
  not close the handle if GetSize fails (nbd.go:56-59, 82-85): a qemu-nbd started by
  socket activation is not terminated (map_closes_refuted).
- ReadAt at exactly the end of the image sends an empty request: libnbd refuses it, and
  over HTTP the range is invalid, so that it is an error instead of io.EOF
  (go_nbd_reads_refuted, go_http_reads_succeed_refuted).
- Size of the HTTP backend panics if the server reports no extents, as it does for an empty
  image over NBD (go_http_size_refuted).
- json.Unmarshal keeps decoding after a value of the wrong type, into b.extents; the next
  call of Extents returns these as if they were right (go_http_extents_again_refuted).

Json
- A file name that is not valid UTF-8 (Python decodes it with surrogateescape) is written
  by json.dumps as an escaped lone surrogate (client/_api.py:482, qemu_nbd.py:173). The
  escape stands for no character, so a strict reader such as QEMU cannot get the name
  back: such images cannot be uploaded or downloaded (file_name_refuted).
- Two surrogates in a str come back from json.loads as one character
  (surrogates_refuted); only str objects made by hand hold these.

Term
- The line of text progress is padded to 79 columns but never cut (client/_ui.py:55). With
  a phase over 26 characters it can be longer: the end of it stays on the screen behind
  the next, shorter, line, or the line wraps and each update leaves a row behind
  (long_phase_refuted, rest_of_line_refuted). On a terminal under 79 columns this happens
  with every update (narrow_terminal_refuted); there is a TODO at _ui.py:27. The phases
  used by the tools are short.

Idle
- Ticket._remove_operation removes the operation under the lock, and the ticket is touched
  after it (auth.py:201-222). Asking for the ticket in between shows a ticket that is not
  active and has been idle for the whole duration of the operation that just ended: 600
  seconds after an operation of 10 minutes (end_race_refuted). An engine pausing or
  canceling transfers idle for too long can do so to a transfer in use.
- idle_time reads the clock before the time of the last use, without the lock: a touch in
  between makes it -1 (negative_refuted).
- touch() reads the clock and writes the time without the lock, so a delayed thread moves
  the time of the last use back (old_touch_refuted).

Signal
- check_terminated() is called only by a worker with a new request (client/_io.py:240). A
  signal that comes when the last worker looked for signals already - while it flushes, or
  while the connections are closed and the transfer is finalized - is ignored: the command
  completes and exits with 0 (late_signal_refuted). A request of up to 128 MiB is completed
  before a worker looks.
- When closing the handler of a worker raises after TerminatedBySignal, the worker reports
  the error of close(), and the tool exits with 1 and logs "Command failed"
  (other_error_refuted).

Show
- float() takes "nan" and "inf" for the float options (_internal/configloader.py:146);
  json.dumps then prints NaN or Infinity (_internal/server.py:79), which are not JSON. Seen
  while reading, not in the model.

QemuImg
- A path that starts with a dash is an option for qemu-img: create("-q", "raw", 512) is read
  as a request for a file named 512 (option_name_refuted, qemu_img.py:25-36).
- A path with a colon before any slash is a protocol for qemu-img: info("nbd:disk") does not
  ask about the file nbd:disk, but qemu-nbd then opens this file with the format that
  was reported for something else (colon_refuted, qemu_img.py:55, client/_api.py:253-261).

Listen
- A server removes whatever file is at its path, also one that is no socket: a wrong
  path in the configuration deletes this file (any_file_removed_refuted, uhttp.py:70-72).
- A second server on the same path silently takes over, and the shutdown of the first
  removes the path of the second, which is then not reached any more
  (shared_path_refuted, uhttp.py:70-79, 91-94).
- shutdown() does not close the socket: with an abstract name clients still connect
  and wait (abstract_waits_refuted, uhttp.py:91-94, services.py:36-38).
- Link local addresses are left out when the family of the socket is chosen, but bind
  resolves the host again: a host whose first IPv6 address is link local listens on
  this one (tcp_link_local_refuted, http.py:106-118, 141, 848-864). A host with only
  link local addresses fails with IndexError.

Open
- The URL of a ticket is file:// and the path without quoting; a path with #, ? or a
  line break opens another file (file_name_refuted, auth.py:39, backends/file.py:38).
- util.open leaves the descriptor open when FileIO refuses it, which it does for
  directories (directory_leak_refuted, util.py:94-95).
- clone() of a file backend opened with mode "w" truncates the image, since the mode of the
  file object is used again (clone_truncates_refuted, backends/file.py:236-238). The server
  itself uses only "r" and "r+".

Uuid
- uuid.UUID takes texts that are no UUIDs, since it uses int(): "0x1234..." or "0_1234..."
  with 32 characters name the disk with zeros in front (uuid_only_refuted,
  uuid_typing_error_refuted, client/_options.py:384).

GoOpen
- Connect and ConnectFile do not close the handle when GetSize fails, so a qemu-nbd keeps
  running (go_handle_leak_refuted, go/ovirt-img/nbd/nbd.go:56-59, 84-87).
- File names are passed to qemu-img and qemu-nbd as they are: "-r" is an option and "fd:1" a
  protocol there (go_file_name_refuted, go/ovirt-img/qemuimg/qemuimg.go:18).
- "file:disk.qcow2" opens the file with the empty name, and the host of "file://host/x" is
  ignored (go_file_url_refuted, go/ovirt-img/backend.go:57-58).

Version
- The version of qemu-nbd is read once in a process, so after an update of qemu-nbd the old
  version still decides (version_update_refuted, qemu_nbd.py:301).
- "5.2" is older than (5, 2, 0), and "6.0.0-rc1" is a ValueError that keeps all servers from
  starting (version_form_refuted, qemu_nbd.py:136, 312).

Feed
- memory._copy ignores the result of readinto: after a short read, or at the end of the
  reader, the old content of the buffer is written, possibly data of another copy
  (copy_short_refuted, copy_past_end_refuted, backends/memory.py:216, 221). Only the tests
  use these classes.
- UnbufferedStream with an empty chunk reports the end too early (stream_end_refuted,
  util.py:142-150).

## What is modelled, and what is not

| Area | Code | Not modelled |
|---|---|---|
| Measure | measure.py, auth.py transferred | len() above sys.maxsize |
| Auth | auth.py Authorizer, may/touch/extend | float rounding of the clock |
| Ticket | auth.py Ticket run, cancel, contexts; backends.get | backend content; info() |
| AuthRace | auth.py Authorizer with Ticket objects, tickets handler | descriptions of tickets |
| Control | tickets handler, Ticket.__init__ validation, store | JSON text, logging |
| Ops | ops.py Read, Write, Zero, Flush | stats clocks |
| File | backends/file.py write, zero, size, extents, block size detection | page cache, allocation, memory alignment of buffers, open/clone/close |
| Memory | backends/memory.py | the extents option of the constructor, max_connections |
| Nbd | nbd.py transmission phase | TLS |
| Handshake | nbd.py: Client.__init__ after connecting, _newstyle_handshake and all option negotiation, close during the handshake | making the socket connection, UTF-8 validity (a parameter), messages of errors |
| NbdBackend | backends/nbd.py | open, logging |
| Extents | nbdutil.extents, merged, Backend.extents | |
| NbdCopy | nbdutil.copy | queue.Queue by its contract |
| Header | http.py Range, ContentRange, content_length | |
| Http | http.py request body, response, Router, connection loop | parsing of request line and header (library), texts |
| Images | handlers/images.py, validate.py, Ticket.run | query and JSON text |
| HttpBackend | backends/http.py, extent.py, handlers/extents.py | TLS, sockets, http.client state after an exception |
| Blkhash | blkhash.py, handlers/checksum.py operation, ioutil.c is_zero | the hash function (parameter) |
| Checksum | handlers/checksum.py Checksum.get, client/_api.py checksum from the connected backend on | /checksum/algorithms, hexadecimal text, Unicode digits, memory allocation |
| Chain | extents of backends/file.py, memory.py, nbd.py as used by handlers/extents.py and the client | memory backends with the extents option |
| Daemon | server.py main from the creation of Server on, Server; services.py; uhttp.py socket files | configuration and logger set up, TLS contexts, addresses, connections, notify_systemd except for its failure, capabilities |
| QemuNbd | qemu_nbd.py Server and run, sockutil.py wait_for_socket, util.py tmp_dir, client/_api.py upload, download, checksum, extents, _open_nbd, _open_http | text of the command line, environment and signal mask of the process, open(), qemu-img itself, exceptions between two calls |
| Api | client/_api.py ImageioClient | extents as an iterator, max_readers, max_writers, logging |
| Progress | client/_ui.py ProgressBar, percents and end of TextFormat; util.humansize | output errors, width, rate, JSON text, float times |
| Clock | stats.py Clock, Stats | text, float rounding of sums, NullClock |
| Admin | admin/_api.py Client, admin/tool.py main, handlers/profile.py, http.py 288-292, validate.py enum | argument parsing, the connection of http.client and uhttp.py, JSON text, failures of yappi and of writing a profile |
| Reply | http.py Response, Headers, Router.__call__ (bytes of header and errors), cors.py, decorators and header of GET in handlers/images.py | failing socket writes (see Http), reason phrases and date (parameters), request headers (a function) |
| Resource | backends/__init__.py Context, Closer, get; contexts in auth.py Ticket; http.py Connection.setup, finish, Context; close of the backends | waiting of cancel and the store (any order, see Ticket), failing close of the buffer, garbage collection |
| Stream | examples/sparse-stream | parsing of arguments, opening the client, the text of the metadata (any functions that are inverse), errors of standard input and output, TypeError or KeyError of the metadata (one exception) |
| Libvirt | examples/libvirt-stream | connecting to libvirt, the drawing of the progress, the buffer as an object (its first bytes are modelled) |
| Session | nbd.py:372-415 __init__, 466-516 close, _connect, 893-944 _soft_disconnect, _hard_disconnect, _close_socket, _next_handle, 1245-1255 | what the messages say (Handshake, Nbd), socket.create_connection trying several addresses |
| Go | go/ovirt-img/nbd/nbd.go, map.go:16-64 | libnbd (an oracle), log messages, main.go, units.go; backend.go and qemuimg.go are in GoOpen |
| GoHttp | go/imageio/http/http.go:17-22, 45-162, extent.go:7-53 | Connect and Close, redirects, text of errors, JSON members repeated or in other case |
| Json | http.py:529, backends/http.py:464, 494, 521, qemu_nbd.py:151-173, client/_api.py:468-482, client/_ui.py:61-72, calls of json.dumps and json.loads | repr of floats (a float is its digits), NaN and Infinity, limits of recursion and digits, decoding UTF-8, indent= of the admin tool |
| Term | client/_ui.py:39-56 TextFormat.draw, 30-32 _write_line, util.py:30-36 humansize of floats | characters of more than one column, output errors, overflow of floats |
| Idle | auth.py:123-129 idle_time, 183-191 touch, 193-222 start and end of operations, handlers/images.py:250 | several readers at once, expiry (Ticket), cancel (Auth) |
| Signal | client/_app.py:10-48, client/_io.py:36-70, 137-256 with the exceptions, client/_tool.py:34-43 | is_handling_signals and the signals blocked for nbdinfo (client/_api.py:496), installing the handlers, signals outside copy() |
| Show | _internal/configloader.py:75-82, 110-129, _internal/config.py:177-213, 252-253, _internal/server.py:78-79, 106-108 | nan and inf, text of files, what logging.config does with the options |
| QemuImg | _internal/qemu_img.py, client/_api.py:151-171, 195-230, 253-263, 278-289, 462-465 | UTF-8 of the output, reading tar files, starting the process |
| Listen | _internal/uhttp.py:36-103, _internal/http.py:84-149, 848-864, _internal/services.py:74-75, 121-122, 155-162 | time between listen and serve_forever, names with inner null characters, scopes of IPv6, TLS |
| Open | _internal/backends/__init__.py:15-20, 86-106, backends/file.py:21-68, 236-281, 330-358, util.py:62-95 | detection of the block size (File), the other modules, the cached context (Resource) |
| Uuid | client/_options.py:363-384, 404 | argparse, the File type |
| GoOpen | go/ovirt-img/backend.go:19-62, nbd/nbd.go:29-90 (connecting), qemuimg/qemuimg.go:17-50, imageio/http/http.go:26-42 | libnbd, qemu-img and its JSON, parseAuthority of url.Parse (oracles), checks of encoded hosts |
| Version | qemu_nbd.py:301-312 version, with 136-146 | decoding of UTF-8 (an error of the process), concurrent first calls, the limit of digits of int() |
| Feed | memory.py:199-222 read_from, write_to, _copy; util.py:124-155 UnbufferedStream | errors of reader and writer, short writes, negative lengths |
| ClientIo | client/_io.py | logging |
| Transfer | client/_api.py: upload, download from the connected backends on: options of the copy, workers, extents, size, and what the workers do with the HTTP backend and the server | qemu-nbd and qemu-img (the local side is the array of C17), tar members, proxies, parallel requests in the server (one request is one step) |
| Storage | ops.py Read, Write, Zero over backends/file.py read, write, zero as sequences of system calls, several connections at once | growing images (blocks of writers are inside of the image), flush (no effect on the content), NBD and HTTP backends, opening and closing |
| Ovirt | client/_ovirt.py, _upload.py, _download.py, exit status of _tool.py | the ovirt SDK, engine and qemu-img (oracles), texts of messages, logging, options passed on unchanged, the data transfer (see Transfer) |
| Url | ipv6.py, sockutil.py addresses, nbd.py URLs | non-ASCII digit tables (parameter) |
| Config | ssl.py, client/_options.py, configloader.py, server.load_config | argparse, ini text, TLS itself |

Not modelled at all:
- the qemu_io process wrapper, systemd and logging set up, tests;
- qemu_nbd.open, Server.wait and send_signal, and the probing of direct I/O
  (_can_use_direct_io) behind the choice of the cache mode;
- server.parse_args, ssl.check_protocol, sockutil.check_connection, directio.Receive;
- the File type, Parser.add_sub_command and the register functions of the client's commands
  (argparse), client/_app.setup_signals;
- util.start_thread and ensure_text, the texts of
  __repr__ and of log messages;
- trivial accessors and constructors that only store their arguments, and Go's main.go.

## Trusted base

- Coq 8.16.1's kernel (including `vm_compute`, used in examples and witnesses).
- `Print Assumptions` reports "Closed under the global context" for every theorem
  named in MANIFEST.json: no axiom is used, neither of the project nor of a library.
  (Loading the standard library brings the module `ssrunder`, whose axioms are
  listed by a whole program check, but no theorem depends on them.)
- The faithfulness of the hand written model to the Python and C code. Comments cite
  the lines and name the simplifications.
- The contracts of the environment which oracles obey: POSIX calls, queue.Queue,
  threading.Condition (waiters woken in order), hashlib, http.client, and the GIL
  (single attribute accesses are atomic).

## Testing of the theorems

`seeded/LOG.jsonl` has one line per wrong program tried: the edited definition, the
edit, the claim it breaks, and the theorems that failed. "theorems_failed" are the
theorems whose existing proof fails, or which depend on a lemma whose proof fails; a
failing lemma in a `XProofs.v` file is counted for the theorems using it. An edit
that no theorem notices is either noted as equivalent (the claim still holds), or the
entry names the theorem that was added or tightened because of it.

## Process notes

- The code in /repo is only read as text. Once (2026-11-17 03:50) a Python
  one-liner meant to locate the standard library's `http/server.py` was run with
  `/repo/ovirt_imageio/_internal` as working directory, so Python began to import
  the project's `http.py` (it stopped at the line `import http.server`) and wrote
  `__pycache__/http.cpython-311.pyc`. The file and the directory were removed at
  once, no other file in /repo changed, and nothing in the model rests on it.
