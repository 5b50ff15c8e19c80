# Design: a Rocq model of f110/go-memcached

Sections 1 and 2 were written before the proofs and are kept current; sections 3 to 6 describe the
last commit.

## 1. Shape of the model

All files are in `rocq/theories/` (logical name `Verif`). Bytes are Coq `ascii`, byte strings
`list ascii`; Go integers are `Z` with explicit wrap-around where the code converts or adds. Every Go
function is a total Gallina function; results are `Ok v | Err e | Panic` (`outcome`). A reading function
is `bytes -> outcome A * bytes`: its argument is *all* bytes the peer will deliver before the connection
fails (or the deadline passes), its result contains the bytes left unread. Quantifying over that argument
quantifies over every crash, truncation and time-out point. That this is what `bufio.Reader` computes for
every segmentation of the stream is itself proved (C28), and `bufio.Writer` over a connection that fails
after any number of bytes is modelled for the writing side (C58, C59, C61).

| layer | files | models |
|---|---|---|
| Go library | `GoBytes` `GoNum` `GoIO` `GoScan` | strings, bytes, strconv, encoding/binary, fmt.Fscanf (with UTF-8 decoding), io.ReadFull: the parts the code calls |
| | `GoBufio` `ReadProg` | `bufio.Reader` (fill, Peek, ReadSlice, ReadBytes, Read) and `io.ReadFull` over a connection delivering arbitrary segments; all reading code of client and server as programs over those reads |
| | `GoWriter` | `bufio.Writer` (sticky errors, partial writes) and the individual writes of every client call |
| | `GoSlice` `Memory` | slices as windows on arrays, `append`; items whose Value and Flags are slices of a heap, and the arrays each call allocates or writes |
| hashes | `Hash` | `crc32.ChecksumIEEE`, `sha1.Sum` (executable, the real functions) |
| client | `Item` `ClientText` `ClientMeta` `ClientBinary` | client/client.go Item, client/server.go: request bytes and reply parser of all 12 operations of the three protocols |
| | `Call` `Transport` | one call: request, daemon, reply |
| | `Lifecycle` | Timeout, failing connections, Close, Reconnect, heartbeat, over `GoWriter` and `GoBufio` |
| | `PoolLoss` | servers of a SinglePool whose connections are lost at any of their calls |
| | `HeaderPool` | the binary client's calls with `sync.Pool` as documented: any pooled header, or a new one, the collector dropping what it likes |
| | `Deadline` | the deadlines each call sets, in real time, against a peer described by the times at which it takes requests and its bytes arrive |
| | `Conc` `TimeConc` `PoolConc` `TimePool` `ManyConc` `ManyProto` `TimeProto` | goroutines sharing one server object, at the level of network segments (`TimeConc`: while time passes at any moment); Close/Reconnect/operations at the level of single field accesses; `PoolConc`: goroutines sharing a SinglePool; `TimePool`: the same while time passes at any moment; `ManyConc`: any number of server objects with one daemon, whose connections are lost at any moment (`ManyProto`: each of its own protocol) |
| routing | `Ring` `Pool` | client/ring.go, client/client.go SinglePool (map iteration order nondeterministic, sort.Slice as *any* sorted permutation) |
| server | `ServerTypes` `ServerParse` `ServerWrite` `Serve` `ServerIO` `ServerConc` | server/server.go request parser, response writer, connection loop; `ServerIO`: the individual writes and flushes on a connection that may fail; `ServerConc`: a goroutine per connection, all interleavings |
| client and server | `Talk` | both ends of one open connection, call after call; the handler of the end-to-end theorem is in PropTalk.v |
| cluster, proxy | `Replica` `ReplicaConc` `Proxy` `RouterConc` `RouterFail` `RouterWait` | cluster/cluster.go (`ReplicaConc`: shared by goroutines), proxy/replica_pool.go, cmd/router/main.go's composition, with many connections at once (`RouterFail`) backends whose connections are lost and (`RouterWait`) backends that do not answer |
| the router's process | `Main` | cmd/router/main.go: connectServers and main (with Go's SplitHostPort), failing Accept, log.Fatal |
| specification | `Cache` `Daemon` `Spec` `Intent` `Guard` `RingSpec` `PoolSpec` `ReplicaSpec` `ServerSpec` `ServerCrash` `Exact` | NOT repository code: the abstract cache a user expects, a conforming memcached for the three wire protocols, what each call should return, and the guards of the partial theorems |

The specification layer is independent of the client model: `Cache` is a small map with values, flags,
expiry and cas numbers; `Daemon` tokenises request bytes by itself (from memcached's protocol documents),
executes on `Cache` and prints replies. The end-to-end theorems say: client encode, then daemon, then
client decode = the abstract cache operation, with nothing left unread.

Proof files are `P*.v` (except `Pool*`, `Proxy`); property statements are in `Prop*.v` (statement, proof,
`Print Assumptions`, and an `Example ..._met` showing a concrete case that meets the hypotheses).

When the faithful model violates a property, a theorem `..._refuted` gives a concrete witness, and a
theorem `..._partial` proves the property under a guard that excludes the violation; the property's
status in MANIFEST.json is then `partial`, and its note names the guard.

## 2. Properties

| id | property | status | what is modelled and how it is proved |
|---|---|---|---|
| C01 | Key routing is total and stays inside the configured servers | proved | ring points, binary search with fuel; loop invariant, index in range, fuel never exhausted |
| C02 | A key is owned by the closest ring point at or below its hash | partial | floor point from the search invariant when no point equals the hash; real SHA-1/CRC-32 witness otherwise |
| C03 | Routing does not depend on the order in which servers are listed | proved | uniqueness of a sorted permutation of points with distinct hashes |
| C04 | Adding or removing one server moves only that server's keys | partial | floor characterisation in both rings; witness on an exact hit |
| C05 | A SinglePool behaves as one cache | proved | pool over abstract servers; simulation to one cache with fresh cas numbers; induction over the history |
| C06 | SinglePool.GetMulti asks each key's owner and returns the union | proved | grouping map, any iteration order; permutation argument |
| C07 | Flush, Version and Close of a pool cover every server or report an error | proved | Each over any order of the server map; induction over the order |
| C08 | Closing a pool closes every server even if one fails to close | partial | as C07; witness with a server that fails to close |
| C09 | The text client is a faithful cache client | proved | request bytes, Daemon, reply parser; a lemma per operation, induction over the history |
| C10 | The meta client is a faithful cache client | partial | as C09 under Guard.v |
| C11 | The binary client is a faithful cache client | partial | as C09 under Guard.v |
| C12 | Values are binary safe | proved | corollary of C09-C11 |
| C13 | Flags round-trip | partial | corollary of C09-C11 |
| C14 | A key cannot inject protocol commands | partial | the daemon on the request bytes runs exactly the commands of Intent.v |
| C15 | GetMulti returns every present key and nothing else | partial | induction over the key list |
| C16 | Replies are never attributed to the wrong call | partial | framing of every reply, including error replies |
| C17 | A connection lost in mid-reply is an error, never a short answer | proved | readers are local: any shorter input is an I/O error (PReader.v) |
| C18 | A timed-out call does not poison later calls | partial | Lifecycle.v: arrival of the reply after the deadline |
| C19 | Concurrent calls on one server are atomic | proved | Conc.v part 1: invariant, simulation to the sequential run in completion order |
| C20 | No reply can crash the client | partial | reply parsers on arbitrary bytes |
| C21 | Misses and conflicts are reported uniformly | partial | corollaries of C09-C11 |
| C22 | A mutation reports success only if the server confirmed it | partial | classification of replies |
| C23 | Counters return the server's number | partial | corollary of C09-C11 |
| C24 | A binary request depends only on the call's arguments | partial | pooled header as an argument |
| C25 | Binary length fields describe the body | partial | big-endian lemmas |
| C26 | Binary headers round-trip | proved | big-endian lemmas |
| C27 | Set does not write to the caller's memory | partial | GoSlice.v: heap of arrays |
| C28 | Network fragmentation does not matter | proved | refinement of the segmented reader to the byte-stream reader, for all read programs |
| C29 | Close is safe to repeat and later calls fail cleanly | partial | Lifecycle.v: invariants over all event sequences |
| C30 | A successful Reconnect gives a clean connection | proved | Lifecycle.v |
| C31 | Reconnect can be retried until the server is back | partial | Lifecycle.v |
| C32 | The heartbeat keeps checking | partial | Lifecycle.v |
| C33 | Close may be called while operations are running | partial | Conc.v part 2: invariants over all schedules, witness schedules |
| C34 | The server delivers exactly the request the client sent | partial | parser on the client's request bytes |
| C35 | Pipelined requests are served in order, once each | proved | induction over the request list |
| C36 | No request can crash the server | partial | case analysis of the parser; witnesses |
| C37 | Every request is answered or the connection is closed | partial | writer case analysis |
| C38 | Server replies decode to what the handler returned | partial | server writer composed with the client's reader |
| C39 | The protocol is chosen by the first byte and stays | proved | serve loop |
| C40 | A malformed request closes the connection without reaching the handler | partial | parser on malformed lines |
| C41 | Meta-get options are parsed letter by letter | proved | the option loop is a set of letters |
| C42 | ReplicaPool reads only the primary | proved | programs of server calls |
| C43 | ReplicaPool writes the primary first | proved | all behaviours of the programs, servers answering anything |
| C44 | Replicas agree after successful histories | partial | induction over histories of two rings of meta servers |
| C45 | Counters are replicated with their expiry | partial | one call |
| C46 | Concurrent writers leave the replicas equal | partial | interleavings of programs |
| C47 | Compare-and-swap works through the ReplicaPool | partial | one call after another |
| C48 | The proxy reports hits and misses as such | partial | proxy handler inside the serve loop, byte level |
| C49 | The proxy preserves flags | partial | as C48 |
| C50 | The proxy stores on both replicas and relays refusals | partial | as C48 |
| C51 | Operations the proxy does not support have no effect | proved | as C48 |
| C52 | Multi-key get through the proxy | partial | as C48 |
| C53 | Every legal memcached key is returned unchanged by Get | partial | UTF-8 as a grammar of bytes (Spec.v: utf8_char); what fmt.Fscanf's %s decodes and encodes again is the key exactly when it is UTF-8 without white space; 0xFF and U+00A0 as witnesses |
| C54 | A negative expiration means expired at once | partial | corollary of C09-C11 |
| C55 | Add and Replace blame the right condition | partial | one call |
| C56 | GetMulti returns the cas numbers Get returns | partial | one call |
| C57 | No argument can crash the client | partial | request builders |
| C58 | A call sends its whole request, or it fails | partial | GoWriter.v: any connection capacity |
| C59 | A write that failed stays failed | proved | GoWriter.v: sticky errors |
| C60 | Close ends the heartbeat goroutine | partial | Lifecycle.v |
| C61 | A reply that cannot be written ends the connection | proved | ServerIO.v: the individual Write/WriteString/Flush calls of each response on a bufio.Writer over a connection that fails after any number of bytes; simulation against serve_conn |
| C62 | Connections are served independently | proved | ServerConc.v: goroutine per connection as a transition system; invariant: what is done plus what is to come equals the run of the connection alone |
| C63 | One client cannot end another client's connection | partial | ServerConc.v, PropServerEnds.v: refuted by one fatal request (the panic is not recovered); the streams that can end the process characterised exactly |
| C64 | A slow request delays only its own connection | proved | ServerConc.v: execution by the connection's own steps alone, by induction on the unread bytes |
| C65 | Goroutines may share one SinglePool for single-key calls | proved | Goroutines as programs making calls on server objects; one system of Conc.v (mutex, partial writes, network, daemon) per server; invariant over all interleavings; for single-key calls the log is a pool history and C05 applies. |
| C66 | Flush of a shared pool removes what was stored before it | proved | Case analysis of the calls Flush makes; on the key's server the flush is followed only by calls that keep the key absent (invariant over the cache specification), then C19's order and C09-C11 give the result of Get. |
| C67 | Flush of a shared pool is atomic | partial | Refuted by a schedule: Flush clears server a, another goroutine stores x on a and still reads hello from b, Flush clears b; then hello is gone and x is there. Proved for pools of one server. |
| C68 | Exactly which requests crash the server | proved | The crash set as a predicate on the fields of the first line or header and the bytes that follow (ServerCrash.v); both directions by case analysis of the parser, then induction over the connection. |
| C69 | The meta client exactly, in every history | proved | Exact.v says in terms of the abstract cache what the client makes of every call; PropExact.v proves one call against the daemon for every state (reusing PMeta.v) and then the history by induction, with the unread rest of a GetMulti as ghost state |
| C70 | The binary client exactly, in every history | proved | as C69, with the cas number left in the header as part of the specification's state |
| C71 | GetMulti of a shared pool | partial | over PoolConc.v: the calls a GetMulti makes (makes, induction over the groups), each call's result from the specification state at its place in the log (C65's invariant and run_ok), grouping facts from PMulti.v |
| C72 | Returned items own their memory | partial | Memory.v reads replies into a heap of arrays (slices as windows of GoSlice.v); a frame invariant over histories (mrun_frame: allocated arrays are new, a call writes at most two bytes behind the Value it is given) gives disjointness and preservation |
| C73 | A call sends the contents its slices have when it is made | partial | req_same and resp_reads: the request and reply programs over memory simulate the ones over contents; induction over the history |
| C74 | Reading, changing and storing an item | partial | exact result from the end-to-end theorem of histories (run_ok, C17) applied to [Get; wait; Set] |
| C75 | Where keys on ring points go, and coinciding points | partial | part_end follows the binary search on indices; induction on the search interval relates it to pick; ownership of points (C02) transfers along permutations and removals; the refutation uses two names with a common point found by search, checked by computing SHA-1 in Coq |
| C76 | The router with many clients: every request takes effect once | proved | RouterConc.v runs every handler as the program of its backend calls, interleaved; an invariant over the log (steps_inv: where each request in flight is, what each answer and each call rests on) is preserved by every step |
| C77 | The router is linearizable and acknowledged sets are seen | proved | the linearization point of a request is its call on the primary: an invariant keeps a list of requests and waits (one_by_one runs it with the sequential proxy of Proxy.v) whose primaries equal the real ones; the secondary's answer is shown to be success for plain sets |
| C78 | When the replicas behind the router agree | partial | invariant: the replicas agree on the key, or the one writer is between its two calls and the primary already holds what it sends; refutations are runs |
| C79 | Meta set options | proved | relational specification (last token of a letter) independent of the parser; induction over the tokens from the right |
| C80 | One client of the router cannot disturb another | partial | invariant over all schedules of RouterConc.v (backend connections clean between calls), refutations by explicit schedules |
| C81 | The router survives the loss of a backend's connection | partial | RouterConc.v over backends whose connections meet arbitrary faults (RouterFail.v); invariant from the moment of the loss on; the fault model is justified by Lifecycle.v |
| C82 | Goroutines may share a ReplicaPool | partial | ReplicaConc.v: the programs of Replica.v interleaved call by call; invariant that carries the order: a call takes its place when its first call on the primary is made |
| C83 | The secondary follows the primary | partial | PropFollow.v: invariant over gsteps for one key: the two servers agree, or the one write of the key under way has reached a stage at which the calls it still makes on the secondary repair the difference |
| C84 | A meta get is answered with the metadata it asks for | partial | PropMetaGet.v: a small reader of meta replies (from memcached's protocol document, memcached 1.5) is run on the bytes the server writes |
| C85 | Timeout bounds every call | partial | Deadline.v gives calls, deadlines and arrivals real times; the bound by cases, the answer in time by locality of the reply readers (as in C17) |
| C86 | The router survives its clients | partial | invariant over RouterConc.v: every connection is tidy (C63) and what is left of every ServeRequest ends without a panic as long as backend calls return; with conforming memcacheds and plain requests they do (C80's invariant); the rest by explicit runs |
| C87 | The router's clients share one ReplicaPool | proved | forward simulation of RouterConc.v by ReplicaConc.v, for arbitrary backends; C78 for several writers then follows from C83 |
| C88 | A silent backend delays only the requests that need it | proved | RouterWait.v splits each call on a backend into taking the mutex and getting the answer; equivalence with RouterConc.v by simulation both ways, waiting by an invariant, the others by showing that held locks of answering backends can be freed and the request run through |
| C89 | A handler can refuse a call | partial | every reply the server can write for a call, for an arbitrary handler, is run through the client's reader |
| C90 | Client and server of this repository, end to end | partial | `Talk.v` models both ends of an open connection (proved equal to the loop of Serve.v on the whole stream, however the bytes are cut). `C90_connection_reuse`: a settled connection is as good as a new one, for every handler; then C38 gives each call and induction over the history gives the rest. The full statement is refuted for every handler with C89. |
| C91 | Several clients of one server: calls take effect one at a time | partial | `ssteps` of ServerConc.v run with the cache handler (with passing time) and the clients' bytes as streams. The handler log gives the order; each log entry is matched with the call whose bytes are exactly that request (`exact_request`), the cache follows `spec_run` (`log_is_spec`), and the bytes on each connection are a prefix of the replies, which the client reads exactly (`served_call`, `conn_requests`, `client_reads_all`). The order at a later moment extends the order at an earlier one. For GetMulti of the binary client a run that no order explains is exhibited. |
| C92 | The router starts when its backends are there | partial | `Main.v` models connectServers and main with Go's SplitHostPort and port check. `C92_starts_exactly` is an equivalence with a specification that mentions only hosts, ports, the order and the network's answers; `C92_ends_at_the_first_failure` is the other case. |
| C93 | A failed Accept does not stop the service | partial | Invariant over the runs of ServerConc.v and of the process of `Main.v` once v_listening is false; C64 from a state that no longer listens; for the limit an explicit run for every limit. |
| C94 | ReplicaPool.GetMulti returns what the Gets would, and leaves the connections in step | partial | `PropLag.v`: the unread answers of a connection are a queue of questions; induction over the later Gets shows that each takes the head of the queue and appends its own question. The pool level follows from C06's group lemma. |
| C95 | The header pool's choices show only in counters after a compare-and-swap | partial | `HeaderPool.v` has the pool as a bag from which Get takes any element or a new one, and from which elements disappear. Induction over the history keeps the invariant that every pooled header's cas number is 0 or one seen before; the converse constructs a behaviour of the pool for each possible history. |
| C96 | A lost server costs a SinglePool only its own keys | partial | `PoolLoss.v` puts a list of faults into each server's state. Simulation of the run with faults by the run without, with the invariant that a server whose connection is up is in the same state in both; results indexed by position. C05 then gives the one cache. Flush: for any subset of the others there is an order of the map that reaches exactly it. |
| C97 | Concurrent calls stay atomic while items expire | partial | `TimeConc.v` lets the clock of `Conc.v` run at any moment and logs when calls begin and end. Invariant: the request under way has not been executed, or was executed as one daemon command after some of the times that passed since it began. The specification `orders` puts each call at one place between its beginning and its end. |
| C98 | A shared SinglePool is one cache while time passes | proved | `TimePool.v` lets the clock of `PoolConc.v` run at any moment and logs when calls begin and end. The specification adds to the log the moments at which the calls take effect (`each_call_at_one_moment`), which make a history. The proof adds them where the daemon executes the request; invariant per server: nobody is in a call, or the holder's request is under way and has had no effect, or it has, and everything the client has to read is the answer. The history then is a pool run, and C05 applies. `PropTimeProto.v` has it for every protocol: the same invariant over C100's account of one server object (`local`, `effect`), with `exact_step` (Exact.v) instead of the daemon in the specification (`explained_exactly`, TimeProto.v); where that is `spec_step` the history is a run of conforming servers up to the errors the protocol leaves open, and C05 for conforming servers applies. |
| C99 | Many clients of one memcached are one cache, whatever connections are lost | proved | `ManyConc.v` gives every server object the states of `Conc.v` and one daemon to all; a lost connection delivers prefixes and nothing more. The specification adds to the log the moments of the effects (`effects_are_right`), which with the passing of time make a history. The proof adds them where the daemon executes a request; invariant per connection: as in C98 while it is up; when lost, what has arrived and will arrive is a prefix of the request of a call without effect (of one that may have failed long ago), or of the answer to the call under way. For compare-and-swap: a used cas number never comes back. `C99_a_set_that_failed_can_appear_later` is a run. |
| C100 | Text, meta and binary clients of one memcached see one cache | proved | `ManyProto.v`: `ManyConc.v` with a protocol for each server object (the transition system is the same, given the clients). The specification adds the moments of the effects to the log, each with its server object, and runs `exact_step` (Exact.v) of that object's protocol on one cache. The proof is that of C99 over what the three protocols share: one request is one daemon step, whose reply is read to the end (`effect`, from C69/C70 and one_step of C97); the bounds of the cache are those of the strictest protocol (`wf PMeta`), which every call keeps if flags and expirations are common to all. The binary client's pooled header keeps cas number 0. `PropManyMulti.v` exhibits for the meta and for the binary client a schedule in which a Flush falls into a GetMulti, and shows that no placement of the effects explains its result. |
| C101 | Every call on a shared server object can return, whatever connections were lost and whoever waits | proved | `PropManyEnds.v`, on the transition system and the invariant of C100. The holder of a mutex: on a connection that exists it sends what is left, the bytes arrive, the daemon executes them (`effect`) and the reply is read; results are no io errors because they agree with the specification, which has none (`exact_no_io`). On a lost connection a write with something left fails, and a read either finds a complete reply in the buffer or fails; both release the mutex. A goroutine that waits takes the mutex after the holder has returned (`can_lock`; that its request can be built is `request_ok`). That a call which has begun and not returned is the one its goroutine is in is read off the log (`began_now`). A goroutine can finish all its calls by induction on what it has left to do (`can_rest`). |
| C102 | Every goroutine that shares a SinglePool can finish | proved | `PropPoolEnds.v`, on the transition system of TimePool.v and the invariant of C98 for every protocol: the holder of a server's mutex can return (`holder_leaves`, as in C101), a waiting goroutine then takes it (`can_leave`; no goroutine holds one mutex while it waits for another, since a goroutine is in at most one call of a server), and the rest of a program follows by induction on its length (`can_finish`). |

The theorems of each property and the guards of the partial ones are listed in MANIFEST.json.

## 3. Not modelled

TCP itself (that bytes arrive in order is assumed; resets and cuts at any byte are modelled), fairness of
the goroutine scheduler, Go's memory model below sequential consistency (the interleavings of `Conc.v` are
interleavings of whole accesses; data races can only do worse than what is shown), memory exhaustion,
`log.Print`, flag and yaml parsing in `cmd/router` (the rest of it is in `Main.v`), `testutil`, DNS. Time is a logical clock
of the daemon that advances between calls, and in `TimeConc.v`, `TimePool.v` and `ManyConc.v` (C97-C100) at any moment. In `Call.v` `sync.Pool` is the header object last put back (the
case in which reuse happens, C24); `HeaderPool.v` has its documented freedom, and C95 says what that changes. The real memcached is represented by `Daemon.v`.

## 4. Findings

Each is a theorem about the faithful model with a concrete witness (`..._refuted`, or an exact
characterisation where named).

Client:
- A key hashing exactly onto a ring point is routed by whatever `upper` the binary search had reached, not
  to that point's server; membership changes then move keys between unchanged servers (C02, C04). C75 says
  exactly where it goes. Servers named ml and rc have a common point: key 59 depends on the unstable sort (C75).
- SinglePool.Close stops at the first server that fails to close (C08). Two servers of one name share one
  map entry: Flush/Close skip the first, GetMulti asks the wrong one (C06, C07).
- Meta: Delete of an absent key succeeds, Touch marks the item stale instead of touching it, GetMulti stops at the first
  miss and leaves the rest of the reply for the next call, flags from 2^31 on cannot be read back
  (C10, C13, C15, C16, C21).
  C69 says exactly what the meta client does, C70 the binary client, in every history.
- Binary: the bodies of error replies to Set/Add/Touch are not read, so the next call reads them as its
  reply; the pooled header keeps a previous cas number, so Increment after a compare-and-swap fails;
  a negative expiration is the year 2106; 16-bit key length wraps (C11, C16, C24, C25, C54).
- Text and meta: a key containing CRLF injects commands (C14); a refused Add/Replace of too large a value is
  reported as ItemExists/ItemNotFound (C55); text and binary GetMulti return no cas numbers (C56); the text
  client returns a key that is not UTF-8 with U+FFFD in it, and for a key with Unicode white space (U+00A0)
  an error or, with a suitable value, another item (C53).
- Malformed replies make 8 of the operations panic (C20 lists exactly which); flags of 1 to 3 bytes make
  stores panic (C57), the binary one leaving its header in the write buffer, where it is sent in front of
  the next request if the caller recovers (C58).
- `append(item.Value, crlf...)` overwrites two bytes of the caller's array when the slice has spare
  capacity (C27).
- The binary client's returned Flags and Value share an array, so appending to Flags overwrites Value (C72);
  flags of less than four bytes with spare capacity are sent with the bytes behind them (C73).
- Get, change, Set: meta makes an item without expiry vanish, text and binary drop the expiry (C74).
- A call that times out leaves its late reply to the next call, with all three protocols; meta and binary
  even label it with the wrong key (C18).
- Setting Timeout back to 0 does not remove the last deadline: once it passes every call fails, until a
  Reconnect; Reconnect itself has no time limit and holds the lock (C85).
- After one failed dial Reconnect fails for ever; meta and binary cannot Reconnect after Close (C31); text
  Close, Reconnect, Close leaves the connection open (C29); the heartbeat checks at most once because its
  timer is never reset (C32); the meta and binary heartbeat goroutine leaks after Close (C60).
- Text Close is unsynchronised: Close during an operation with Timeout, two Closes, and Close during
  Reconnect can panic (C33).
- Flush of a SinglePool shared by goroutines is not atomic: a goroutine can see its older value gone and its
  newer one kept although no order of whole calls allows both (C67). Nor is GetMulti across servers (C71).
- GetMulti of the binary client is one request per key, so of two items that expire at the same moment it can
  return one and miss the other (C97), and so does that of the meta client; a Flush by another client that falls into it
  leaves it with one of two items (C100).

Server:
- Negative data lengths, empty or negative "ms" tokens and short binary extras panic, which ends the process
  (C36; C68 says exactly which), so one client ends the connections of all others (C63). An answer carrying an error is not written at all: the client waits for ever (C37).
- Text cas, flags or deltas from 2^31 on, and the meta client's Touch close the connection; a binary cas
  number is dropped (C34). Meta gets never return flags, cas or lifetime to this repository's client (C38).
- No handler can refuse a Set, Add, Replace, Delete, Touch or Flush, nor a binary Get or counter: the server never writes an
  error (the binary status is always 0), so the client sees success or waits (C89).
- Serve returns on the first error of Accept: nobody is accepted any more (C93).
- GetMulti of the binary client is one request per key: with a server of this repository other clients' calls come between (C91).
- A meta get without the letter v is answered with the size of a value that does not follow (C84).

Cluster and proxy:
- The router never reconnects to a backend: after one lost connection all requests for its keys fail for ever, although the
  secondary has the items, and sets whose secondary is lost are stored on the primary only (C81).
- A line ended by a bare line feed (or a binary key with a line end) sent to the router by one client puts a backend's connection
  out of sync for all clients, who are then given each other's answers; it also lets a get run any command on the backend (C80).
- With the same trick and a stored value that reads `VA -5 `, two ordinary-looking requests make the router panic: its process ends (C86).
  Configured with an empty primary or secondary list it starts, and ends at the first get or set (C86).
- The router cannot use a backend whose host is an IPv6 address unless the configuration has it in brackets: it ends at start-up (C92).
  When accepting a connection fails - clients that merely open connections up to the limit of open files bring that about - it ends (C93).
- The router sets no Timeout: while a backend is silent every client that asks for one of its keys waits for ever, sets also when it is
  only the secondary (the primary has stored them). Other requests are not affected (C88).
- The router's replicas differ after two clients set one key at the same time, and an item with an expiration
  expires on the two servers at different times (C78). Seen through the router itself, plain sets and gets are linearizable (C77).
- Replicated counters: an item without expiry gets expiration -1 on the secondary (immediately expired), an
  expiry beyond 30 days is taken as a Unix time (C44, C45). Concurrent writers of one key can leave the
  replicas different for ever (C46). Goroutines sharing the pool see one history of the primaries, except that an
  Increment that counted returns ItemNotFound when the key is deleted before the pool reads it back (C82). A cas number of the primary is sent to the secondary (C47): if the numbers differ, every attempt of a get-and-retry loop fails, for ever, and every attempt replaces the value on the primary.
  A Set of a value the server finds too large removes the old item from the primary only, and an Increment to 2^63 or more
  counts on the primary, returns an error and leaves the secondary behind (C83).
- After a ReplicaPool.GetMulti with an absent key every later Get of a key of that primary returns the answer to an earlier
  question, labelled with its own key, for ever (C94).
- After a compare-and-swap on the binary client an Increment of any other key counts or fails, depending on which
  header object sync.Pool hands out (C95; C24).
- With one server of a SinglePool lost, GetMulti including one of its keys returns no items, and Flush reaches an arbitrary
  subset of the other servers (C96).
- A call that failed with an io error because its connection was lost can take effect after that, and after later calls of other
  clients (C99).
- The proxy answers misses as empty hits, never returns flags, does not answer refused sets, and rejects or
  ignores multi-key gets (C48 to C52).

## 5. Trusted base

- Coq 8.16.1's kernel (and its `vm_compute` for the concrete examples and witnesses).
- Axioms: none. `Print Assumptions` is run after every property theorem in the `Prop*.v` files and prints
  "Closed under the global context" for each of them. No `Axiom`, `Parameter`, `Admitted`, functor,
  module type or plugin is used. (vcheck's `library_axioms` lists `Coq.ssr.ssrunder.Under_rel.*`, which is
  loaded with Coq's prelude and used by no theorem here.)
- The hand reading of the code in /repo into the model files above (each definition cites the lines), of the
  Go standard library functions in `Go*.v` (Go 1.16), and of memcached's protocol documents in `Daemon.v`.
- The specification files, which say in Coq what the English properties mean.

## 6. Testing the theorems

`seeded/LOG.jsonl` records the wrong programs tried: each line names the edited definition, the edit, the
claim it breaks, the theorems that no longer prove, and what was tightened.
