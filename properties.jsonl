{"id": "C01", "title": "Key routing is total and stays inside the configured servers", "statement": "For every non-empty list of servers and every key, routing a key terminates without a panic and selects one of the servers the ring was built from. A ring built from no servers panics on the first routed key.", "quantifier": "all non-empty server lists, all sorted arrangements of the ring points, all byte-string keys", "why_tests_cant": "A test routes a handful of keys; an index error in the binary search shows only for particular hash positions.", "anchors": ["client/ring.go: NewRing", "client/ring.go: Ring.Pick", "client/client.go: NewSinglePool"]}
{"id": "C02", "title": "A key is owned by the closest ring point at or below its hash", "statement": "Routing a key selects the server owning the greatest ring point that is less than or equal to the key's hash, or the lowest ring point when all points lie above the hash.", "quantifier": "all server lists and all keys", "why_tests_cant": "An exact hit of a key hash on a ring point has probability 2^-32 per point, so no sampled test reaches that branch.", "anchors": ["client/ring.go: Ring.Pick", "client/ring.go: NewRing"]}
{"id": "C03", "title": "Routing does not depend on the order in which servers are listed", "statement": "Two processes configured with the same servers in different orders route every key to the same server, provided no two ring points coincide.", "quantifier": "all permutations of a server list, all keys, every result an unstable sort may give", "why_tests_cant": "The number of permutations and keys is unbounded; sort.Slice is unstable, so the outcome of a tie is not fixed by any one run.", "anchors": ["client/ring.go: NewRing", "client/ring.go: Ring.Pick"]}
{"id": "C04", "title": "Adding or removing one server moves only that server's keys", "statement": "When one server is removed from a ring, every key that was routed to another server is still routed to that same server (equivalently, adding a server only moves keys onto the new one).", "quantifier": "all server lists, all choices of the removed server, all keys", "why_tests_cant": "The claim compares two rings on all 2^32 hash positions.", "anchors": ["client/ring.go: NewRing", "client/ring.go: Ring.Pick"]}
{"id": "C05", "title": "A SinglePool behaves as one cache", "statement": "For every history of Get, Set, Add, Replace, Delete, Increment, Decrement, Touch and Flush on a SinglePool whose servers are conforming caches, all results (values, flags, errors, compare-and-swap outcomes) are those of one single cache; no operation on a key touches a server other than the key's owner.", "quantifier": "all server lists, all operation histories of any length, all keys and values", "why_tests_cant": "Needs every history over every distribution of keys to servers.", "anchors": ["client/client.go: SinglePool.Get", "client/client.go: SinglePool.Set", "client/client.go: SinglePool.Add", "client/client.go: SinglePool.Replace", "client/client.go: SinglePool.Delete", "client/client.go: SinglePool.Increment", "client/client.go: SinglePool.Decrement", "client/client.go: SinglePool.Touch", "client/client.go: SinglePool.Flush"]}
{"id": "C06", "title": "SinglePool.GetMulti asks each key's owner and returns the union", "statement": "SinglePool.GetMulti over servers with distinct names asks every requested key exactly once, at the server Get would ask, and returns exactly the items those servers returned, whatever order Go iterates its maps in; if any server fails the call fails and returns no items.", "quantifier": "all key lists (with repetitions), all server lists, all map iteration orders, all server answers", "why_tests_cant": "Go randomises map iteration; a test sees one order per run.", "anchors": ["client/client.go: SinglePool.GetMulti", "client/ring.go: Ring.Find"]}
{"id": "C07", "title": "Flush, Version and Close of a pool cover every server or report an error", "statement": "For servers with distinct names: if SinglePool.Flush (Version, Close) returns no error then it has been executed successfully on every server, once each, and Version's result has exactly one entry per server; if some server fails, an error is returned.", "quantifier": "all lists of servers with distinct names, all map iteration orders, all combinations of per-server failures", "why_tests_cant": "Which servers are visited before a failure depends on the random map order.", "anchors": ["client/ring.go: Ring.Each", "client/client.go: SinglePool.Flush", "client/client.go: SinglePool.Version", "client/client.go: SinglePool.Close"]}
{"id": "C08", "title": "Closing a pool closes every server even if one fails to close", "statement": "SinglePool.Close attempts to close every server; a failure to close one does not leave another open. (Ring.Close has this behaviour and reports an error iff some close failed.)", "quantifier": "all server lists, iteration orders and failure patterns", "why_tests_cant": "Needs injected close failures in every position of a random iteration order.", "anchors": ["client/client.go: SinglePool.Close", "client/ring.go: Ring.Each", "client/ring.go: Ring.Close"]}
{"id": "C09", "title": "The text client is a faithful cache client", "statement": "Against a conforming memcached, every history of calls with legal keys (UTF-8 without white space) on a text-protocol server returns what an abstract cache returns: hits with exact value, flags, cas and key; ItemNotFound on a miss; compare-and-swap and Add/Replace outcomes; counters; and after each call no byte of its reply is left unread.", "quantifier": "all histories of any length, all legal keys, all byte-string values, all 32-bit flags, all clock advances", "why_tests_cant": "Tests run a few fixed calls; the claim is over every history and every byte content.", "anchors": ["client/server.go: ServerWithTextProtocol.Get", "client/server.go: ServerWithTextProtocol.GetMulti", "client/server.go: ServerWithTextProtocol.parseGetResponse", "client/server.go: ServerWithTextProtocol.Set", "client/server.go: ServerWithTextProtocol.Add", "client/server.go: ServerWithTextProtocol.Replace", "client/server.go: ServerWithTextProtocol.Delete", "client/server.go: ServerWithTextProtocol.incrOrDecr", "client/server.go: ServerWithTextProtocol.Touch", "client/server.go: ServerWithTextProtocol.Flush", "client/server.go: ServerWithTextProtocol.Version"]}
{"id": "C10", "title": "The meta client is a faithful cache client", "statement": "The same refinement for the meta-protocol server: every history of calls returns what an abstract cache returns and leaves no reply byte unread.", "quantifier": "all histories of any length, all legal keys, values, flags, clock advances", "why_tests_cant": "The failing cases need a particular mix of hits and misses followed by another call on the same connection.", "anchors": ["client/server.go: ServerWithMetaProtocol.Get", "client/server.go: ServerWithMetaProtocol.GetMulti", "client/server.go: ServerWithMetaProtocol.parseGetResponse", "client/server.go: ServerWithMetaProtocol.readGetFlagToken", "client/server.go: ServerWithMetaProtocol.Set", "client/server.go: ServerWithMetaProtocol.Add", "client/server.go: ServerWithMetaProtocol.Replace", "client/server.go: ServerWithMetaProtocol.Delete", "client/server.go: ServerWithMetaProtocol.incrOrDecr", "client/server.go: ServerWithMetaProtocol.Touch", "client/server.go: ServerWithMetaProtocol.Flush", "client/server.go: ServerWithMetaProtocol.Version"]}
{"id": "C11", "title": "The binary client is a faithful cache client", "statement": "The same refinement for the binary-protocol server: every history of calls returns what an abstract cache returns and leaves no reply byte unread.", "quantifier": "all histories of any length, all legal keys, values, flags, clock advances, all contents of the pooled headers", "why_tests_cant": "The failing cases need an error reply followed by another call, or a pooled header with old contents.", "anchors": ["client/server.go: ServerWithBinaryProtocol.Get", "client/server.go: ServerWithBinaryProtocol.GetMulti", "client/server.go: ServerWithBinaryProtocol.Set", "client/server.go: ServerWithBinaryProtocol.Add", "client/server.go: ServerWithBinaryProtocol.Replace", "client/server.go: ServerWithBinaryProtocol.Delete", "client/server.go: ServerWithBinaryProtocol.incrOrDecr", "client/server.go: ServerWithBinaryProtocol.Touch", "client/server.go: ServerWithBinaryProtocol.Flush", "client/server.go: ServerWithBinaryProtocol.Version"]}
{"id": "C12", "title": "Values are binary safe", "statement": "With each of the three protocols, the bytes given to Set are exactly the bytes a following Get of the key returns: any length, any content, including CR, LF, spaces and protocol words.", "quantifier": "all byte-string values, all legal keys, all three protocols", "why_tests_cant": "Sampled values miss adversarial contents such as a value that imitates a protocol line.", "anchors": ["client/server.go: ServerWithTextProtocol.Get", "client/server.go: ServerWithMetaProtocol.parseGetResponse", "client/server.go: ServerWithBinaryProtocol.Get", "client/client.go: Item.marshalBinaryRequestHeader"]}
{"id": "C13", "title": "Flags round-trip", "statement": "A 4-byte flags field given to Set is returned unchanged by Get, for every value of the four bytes, with each protocol.", "quantifier": "all 2^32 flags values, all three protocols", "why_tests_cant": "Tests use flags 1; the defect is in the half of the range with the top bit set.", "anchors": ["client/server.go: ServerWithMetaProtocol.readGetFlagToken", "client/server.go: ServerWithTextProtocol.Set", "client/server.go: ServerWithBinaryProtocol.Set"]}
{"id": "C14", "title": "A key cannot inject protocol commands", "statement": "A call with any key sends the server exactly one command (one per key for GetMulti), the intended one, so a key can never cause another command to be executed.", "quantifier": "all byte-string keys, all operations, text and meta protocols", "why_tests_cant": "Needs all byte strings as keys.", "anchors": ["client/server.go: ServerWithTextProtocol.Get", "client/server.go: ServerWithTextProtocol.Delete", "client/server.go: ServerWithMetaProtocol.Get"]}
{"id": "C15", "title": "GetMulti returns every present key and nothing else", "statement": "GetMulti on one server returns exactly the items present among the requested keys, in request order, whatever mix of hits and misses.", "quantifier": "all key lists, all cache contents, all three protocols", "why_tests_cant": "Every hit/miss pattern of every length has to be covered.", "anchors": ["client/server.go: ServerWithTextProtocol.GetMulti", "client/server.go: ServerWithMetaProtocol.GetMulti", "client/server.go: ServerWithBinaryProtocol.GetMulti"]}
{"id": "C16", "title": "Replies are never attributed to the wrong call", "statement": "After a call that completed without an I/O error the connection is positioned at the start of the next reply, for every well-formed reply including error replies, so the next call reads its own reply.", "quantifier": "all well-formed reply byte streams, all operations, all three protocols", "why_tests_cant": "Desynchronisation only shows in the call after the faulty one and only for particular replies.", "anchors": ["client/server.go: ServerWithBinaryProtocol.Set", "client/server.go: ServerWithBinaryProtocol.Add", "client/server.go: ServerWithBinaryProtocol.Touch", "client/server.go: ServerWithBinaryProtocol.Version", "client/server.go: ServerWithMetaProtocol.GetMulti"]}
{"id": "C17", "title": "A connection lost in mid-reply is an error, never a short answer", "statement": "If the connection fails at any byte of the reply, the call returns an error; it never returns a truncated value or a partial list as success.", "quantifier": "all calls, all replies, all cut positions, all three protocols", "why_tests_cant": "Every crash position of every reply has to be tried.", "anchors": ["client/server.go: ServerWithTextProtocol.Get", "client/server.go: ServerWithTextProtocol.parseGetResponse", "client/server.go: ServerWithMetaProtocol.parseGetResponse", "client/server.go: binaryResponseHeader.Read"]}
{"id": "C18", "title": "A timed-out call does not poison later calls", "statement": "If a call fails with a timeout, a later call on the same server never returns data that belonged to the timed-out call's reply.", "quantifier": "all arrival times of reply bytes, all call histories", "why_tests_cant": "Depends on when bytes arrive relative to deadlines.", "anchors": ["client/server.go: ServerWithTextProtocol.Get", "client/server.go: ServerWithMetaProtocol.Get", "client/server.go: ServerWithBinaryProtocol.Get"]}
{"id": "C19", "title": "Concurrent calls on one server are atomic", "statement": "Any number of goroutines calling operations of one server over one connection observe results as if the calls were executed one at a time in some order that respects each goroutine's program order; every call gets the reply to its own request.", "quantifier": "all numbers of goroutines, all programs, all interleavings of goroutine and network steps", "why_tests_cant": "The number of interleavings is unbounded; the race detector sees one.", "anchors": ["client/server.go: ServerWithTextProtocol.mu", "client/server.go: ServerWithMetaProtocol.mu", "client/server.go: ServerWithBinaryProtocol.mu"]}
{"id": "C20", "title": "No reply can crash the client", "statement": "Whatever bytes a server sends, an operation returns a result or an error and does not panic.", "quantifier": "all byte streams from the server, all operations, all three protocols", "why_tests_cant": "Needs every byte stream.", "anchors": ["client/server.go: ServerWithTextProtocol.parseGetResponse", "client/server.go: ServerWithTextProtocol.incrOrDecr", "client/server.go: ServerWithTextProtocol.Flush", "client/server.go: ServerWithMetaProtocol.parseGetResponse", "client/server.go: ServerWithBinaryProtocol.Get", "client/server.go: ServerWithBinaryProtocol.incrOrDecr"]}
{"id": "C21", "title": "Misses and conflicts are reported uniformly", "statement": "With every protocol Get, Delete, Replace, Touch and Increment of an absent key return ItemNotFound, Add of a present key and a Set with an outdated cas return ItemExists.", "quantifier": "all operations, all keys, all cache states, all three protocols", "why_tests_cant": "The combination protocol x operation x cache state is not enumerated by the tests (several are skipped).", "anchors": ["client/server.go: ServerWithMetaProtocol.Delete", "client/server.go: ServerWithMetaProtocol.Touch", "client/server.go: ServerWithBinaryProtocol.incrOrDecr", "errors/errors.go: ItemNotFound, ItemExists"]}
{"id": "C22", "title": "A mutation reports success only if the server confirmed it", "statement": "Set, Add, Replace, Delete, Touch and Flush return nil only if the server's reply was the positive acknowledgement of that operation.", "quantifier": "all reply lines / reply headers, all mutations, all three protocols", "why_tests_cant": "All possible replies have to be considered, including error lines no test server sends.", "anchors": ["client/server.go: ServerWithTextProtocol.Delete", "client/server.go: ServerWithTextProtocol.Touch", "client/server.go: ServerWithBinaryProtocol.Flush"]}
{"id": "C23", "title": "Counters return the server's number", "statement": "Increment and Decrement return exactly the new counter value held by the server, over the whole 64-bit counter range.", "quantifier": "all counter values and deltas, all three protocols", "why_tests_cant": "Boundary is at 2^63, far from tested values.", "anchors": ["client/server.go: ServerWithTextProtocol.incrOrDecr", "client/server.go: ServerWithMetaProtocol.incrOrDecr", "client/server.go: ServerWithBinaryProtocol.incrOrDecr"]}
{"id": "C24", "title": "A binary request depends only on the call's arguments", "statement": "The bytes of a binary-protocol request are determined by the operation and its arguments, and do not depend on which operations were executed before.", "quantifier": "all operations, all previous contents of recycled request headers", "why_tests_cant": "sync.Pool hands out recycled headers nondeterministically.", "anchors": ["client/server.go: ServerWithBinaryProtocol.incrOrDecr", "client/server.go: ServerWithBinaryProtocol.getReqHeader", "client/server.go: binaryRequestHeader.Reset", "client/server.go: binaryRequestHeader.EncodeTo"]}
{"id": "C25", "title": "Binary length fields describe the body", "statement": "The key length, extras length and total body length of a binary request are exactly the lengths of the key, extras and body that follow the header.", "quantifier": "all keys and values of any length, all binary operations", "why_tests_cant": "Truncation to 16 and 32 bits shows only for keys of 64 KiB or values of 4 GiB.", "anchors": ["client/server.go: binaryRequestHeader.EncodeTo", "client/client.go: Item.marshalBinaryRequestHeader", "client/server.go: ServerWithBinaryProtocol.Get"]}
{"id": "C26", "title": "Binary headers round-trip", "statement": "Decoding an encoded binary header yields the same opcode, lengths, status, cas and opaque; a response that does not start with the response magic is rejected.", "quantifier": "all header field values", "why_tests_cant": "2^192 headers.", "anchors": ["client/server.go: binaryRequestHeader.EncodeTo", "client/server.go: binaryResponseHeader.Read", "server/server.go: conn.readBinaryRequest", "server/server.go: Response.writeAsBinaryProtocol"]}
{"id": "C27", "title": "Set does not write to the caller's memory", "statement": "Set transmits the value followed by CRLF and leaves all memory of the caller, including the backing array behind the value slice, unchanged.", "quantifier": "all slices (array, offset, length, capacity), text and meta protocols", "why_tests_cant": "Needs slices with spare capacity whose tail is observed.", "anchors": ["client/server.go: ServerWithTextProtocol.Set", "client/server.go: ServerWithMetaProtocol.Set"]}
{"id": "C28", "title": "Network fragmentation does not matter", "statement": "The result of every read the client and the server perform is the same however the byte stream is cut into network segments.", "quantifier": "all segmentations of all byte streams", "why_tests_cant": "Exponentially many segmentations.", "anchors": ["client/server.go: ServerWithTextProtocol.Get (ReadSlice, ReadFull)", "server/server.go: conn.readAsciiRequest", "server/server.go: conn.readBinaryRequest"]}
{"id": "C29", "title": "Close is safe to repeat and later calls fail cleanly", "statement": "After Close, a second Close returns an error and every operation returns an error; nothing panics.", "quantifier": "all sequences of Close, Reconnect and operations after it, all three protocols, with and without timeout", "why_tests_cant": "All sequences of lifecycle calls.", "anchors": ["client/server.go: ServerWithTextProtocol.Close", "client/server.go: ServerWithMetaProtocol.Close", "client/server.go: ServerWithBinaryProtocol.Close"]}
{"id": "C30", "title": "A successful Reconnect gives a clean connection", "statement": "After a Reconnect that returns nil, calls use the new connection with no bytes left over from the old one: the next call reads its own reply.", "quantifier": "all states of the old connection (any unread bytes), all calls after it", "why_tests_cant": "Leftover bytes depend on the failure position.", "anchors": ["client/server.go: ServerWithTextProtocol.Reconnect", "client/server.go: ServerWithMetaProtocol.Reconnect", "client/server.go: ServerWithBinaryProtocol.Reconnect"]}
{"id": "C31", "title": "Reconnect can be retried until the server is back", "statement": "If Reconnect fails because the server is down, calling it again once the server is reachable succeeds.", "quantifier": "all sequences of failed attempts", "why_tests_cant": "Needs a server that is down during one attempt and up in the next.", "anchors": ["client/server.go: ServerWithTextProtocol.Reconnect", "client/server.go: ServerWithMetaProtocol.Reconnect", "client/server.go: ServerWithBinaryProtocol.Reconnect"]}
{"id": "C32", "title": "The heartbeat keeps checking", "statement": "With EnableHeartbeat the connection is checked every interval for as long as the server object is open.", "quantifier": "all run lengths (number of intervals)", "why_tests_cant": "A test waits for one interval; the claim is about all of them.", "anchors": ["client/server.go: heartbeat", "client/server.go: EnableHeartbeat"]}
{"id": "C33", "title": "Close may be called while operations are running", "statement": "Calling Close concurrently with operations or with another Close never panics.", "quantifier": "all interleavings of Close with the steps of an operation", "why_tests_cant": "Needs one particular interleaving of a few instructions.", "anchors": ["client/server.go: ServerWithTextProtocol.Close", "client/server.go: ServerWithTextProtocol.Get"]}
{"id": "C34", "title": "The server delivers exactly the request the client sent", "statement": "For every operation and protocol the server supports, the bytes the client sends are parsed to a request with the same operation, key(s), value, flags, expiration and delta, consuming exactly those bytes.", "quantifier": "all legal keys, all values, all flags/expirations/deltas, all three protocols", "why_tests_cant": "Every byte content of every field.", "anchors": ["server/server.go: conn.readAsciiRequest", "server/server.go: conn.readBinaryRequest", "client/server.go: ServerWithTextProtocol.Set", "client/server.go: ServerWithMetaProtocol.Set", "client/server.go: ServerWithBinaryProtocol.Set"]}
{"id": "C35", "title": "Pipelined requests are served in order, once each", "statement": "A connection carrying any sequence of well-formed requests back to back calls the handler once per request in the order sent, and the replies are written in that order.", "quantifier": "all request sequences of any length, all handlers", "why_tests_cant": "Unbounded sequences.", "anchors": ["server/server.go: Server.serve", "server/server.go: Server.serveRequest", "server/server.go: conn.readRequest"]}
{"id": "C36", "title": "No request can crash the server", "statement": "Whatever bytes a client sends, the server parses a request or closes that connection; it does not panic (a panic in a connection goroutine ends the whole process).", "quantifier": "all byte streams from clients", "why_tests_cant": "Needs every byte stream.", "anchors": ["server/server.go: conn.readAsciiRequest", "server/server.go: conn.readBinaryRequest"]}
{"id": "C37", "title": "Every request is answered or the connection is closed", "statement": "After a request has been parsed the server either writes a reply or closes the connection; a client never waits forever on an open connection.", "quantifier": "all requests, all handler answers including error answers", "why_tests_cant": "All handler results for all operations.", "anchors": ["server/server.go: Server.writeAsciiResponse", "server/server.go: Server.writeBinaryResponse"]}
{"id": "C38", "title": "Server replies decode to what the handler returned", "statement": "The bytes the server writes for a handler's answer are decoded by this repository's client of the same protocol to the same key, value and flags.", "quantifier": "all handler answers, all three protocols", "why_tests_cant": "Every byte content of every field.", "anchors": ["server/server.go: Server.writeAsciiResponseGet", "server/server.go: Server.writeAsciiResponseMetaGet", "server/server.go: Response.writeAsBinaryProtocol"]}
{"id": "C39", "title": "The protocol is chosen by the first byte and stays", "statement": "A connection is binary if its first byte is 0x80 and textual otherwise, and remains so for all later requests.", "quantifier": "all byte streams, all request positions", "why_tests_cant": "Unbounded streams.", "anchors": ["server/server.go: conn.detectProtocol", "server/server.go: conn.readRequest"]}
{"id": "C40", "title": "A malformed request closes the connection without reaching the handler", "statement": "An unknown command or a command with the wrong number of fields is never passed to the handler; requests before it have been served normally and the connection ends.", "quantifier": "all malformed first lines, after any sequence of good requests", "why_tests_cant": "All malformed lines after all prefixes.", "anchors": ["server/server.go: conn.readAsciiRequest", "server/server.go: conn.readBinaryRequest", "server/server.go: Server.serve"]}
{"id": "C41", "title": "Meta-get options are parsed letter by letter", "statement": "For a meta get the options delivered to the handler are exactly the set of known option letters occurring in the flags field, independent of order and repetition.", "quantifier": "all flags strings", "why_tests_cant": "All strings of letters.", "anchors": ["server/server.go: conn.readAsciiRequest (mg)"]}
{"id": "C42", "title": "ReplicaPool reads only the primary", "statement": "ReplicaPool.Get and GetMulti return what the primary ring returns and never contact the secondary.", "quantifier": "all keys, all ring configurations, all states of the secondaries (including failing ones)", "why_tests_cant": "Must hold for every state of the secondary.", "anchors": ["cluster/cluster.go: ReplicaPool.Get", "cluster/cluster.go: ReplicaPool.GetMulti"]}
{"id": "C43", "title": "ReplicaPool writes the primary first", "statement": "A write through the ReplicaPool reaches the secondary only after the primary acknowledged it; if the primary fails the error is returned and no secondary is touched; if it returns nil both acknowledged.", "quantifier": "all write operations, all failure patterns of primary and secondary", "why_tests_cant": "All failure patterns at all positions.", "anchors": ["cluster/cluster.go: ReplicaPool.Set", "cluster/cluster.go: ReplicaPool.Add", "cluster/cluster.go: ReplicaPool.Replace", "cluster/cluster.go: ReplicaPool.Delete", "cluster/cluster.go: ReplicaPool.Increment", "cluster/cluster.go: ReplicaPool.Decrement"]}
{"id": "C44", "title": "Replicas agree after successful histories", "statement": "After any sequential history of ReplicaPool operations that all returned success on empty rings, every key present in the primary is present in the secondary with the same value and flags and the same expiry, and vice versa.", "quantifier": "all histories of any length, all keys, all clock advances", "why_tests_cant": "Unbounded histories.", "anchors": ["cluster/cluster.go: ReplicaPool.Set", "cluster/cluster.go: ReplicaPool.Add", "cluster/cluster.go: ReplicaPool.Replace", "cluster/cluster.go: ReplicaPool.Delete", "cluster/cluster.go: ReplicaPool.Increment", "cluster/cluster.go: ReplicaPool.Decrement"]}
{"id": "C45", "title": "Counters are replicated with their expiry", "statement": "After a successful ReplicaPool.Increment or Decrement the secondary holds the new counter value with the flags and remaining lifetime of the primary's item.", "quantifier": "all counter items: without expiry, with any expiry", "why_tests_cant": "The test uses one item with a 10 second expiry.", "anchors": ["cluster/cluster.go: ReplicaPool.Increment", "cluster/cluster.go: ReplicaPool.Decrement"]}
{"id": "C46", "title": "Concurrent writers leave the replicas equal", "statement": "After all concurrent ReplicaPool writers have returned success, primary and secondary hold the same value for every key.", "quantifier": "all interleavings of concurrent writers", "why_tests_cant": "Schedule dependent.", "anchors": ["cluster/cluster.go: ReplicaPool.Set", "cluster/cluster.go: ReplicaPool.Increment"]}
{"id": "C47", "title": "Compare-and-swap works through the ReplicaPool", "statement": "A ReplicaPool.Set carrying the cas value obtained from ReplicaPool.Get, with no write in between, succeeds.", "quantifier": "all histories before it, all ring configurations", "why_tests_cant": "Depends on the cas counters of the two clusters, hence on the whole history.", "anchors": ["cluster/cluster.go: ReplicaPool.Set", "cluster/cluster.go: ReplicaPool.Get"]}
{"id": "C48", "title": "The proxy reports hits and misses as such", "statement": "A get through the proxy of a key the primary holds answers with the key and the exact value; of a key it does not hold, the client sees a miss.", "quantifier": "all keys, all cache states, text and binary protocol", "why_tests_cant": "All values; the miss case needs the full server/proxy stack.", "anchors": ["proxy/replica_pool.go: ReplicaProxy.ServeRequest", "server/server.go: Server.writeAsciiResponse", "server/server.go: Server.writeBinaryResponse"]}
{"id": "C49", "title": "The proxy preserves flags", "statement": "Flags stored through the proxy are returned by a later get through the proxy.", "quantifier": "all flags, all protocols", "why_tests_cant": "All flag values in all protocols.", "anchors": ["proxy/replica_pool.go: ReplicaProxy.ServeRequest", "server/server.go: conn.readAsciiRequest (ms)"]}
{"id": "C50", "title": "The proxy stores on both replicas and relays refusals", "statement": "A set through the proxy that is answered positively is stored on primary and secondary with the request's value, flags and expiration; a set refused by the primary is answered negatively.", "quantifier": "all set requests, all cache states", "why_tests_cant": "All requests and states.", "anchors": ["proxy/replica_pool.go: ReplicaProxy.ServeRequest", "cluster/cluster.go: ReplicaPool.Set"]}
{"id": "C51", "title": "Operations the proxy does not support have no effect", "statement": "A request other than get or set through the proxy changes nothing on any backend and ends the connection.", "quantifier": "all requests with other opcodes", "why_tests_cant": "All requests.", "anchors": ["proxy/replica_pool.go: ReplicaProxy.ServeRequest", "server/server.go: Server.serve"]}
{"id": "C52", "title": "Multi-key get through the proxy", "statement": "A text get of several keys through the proxy returns the items of those keys.", "quantifier": "all key lists", "why_tests_cant": "All key lists.", "anchors": ["proxy/replica_pool.go: ReplicaProxy.ServeRequest", "server/server.go: conn.readAsciiRequest (gets)"]}
{"id": "C53", "title": "Every legal memcached key is returned unchanged by Get", "statement": "Get returns an item whose key is the key asked for, for every key memcached accepts (1 to 250 bytes, no space or control byte, including bytes above 127).", "quantifier": "all legal keys", "why_tests_cant": "Non-UTF-8 keys are not in the tests.", "anchors": ["client/server.go: ServerWithTextProtocol.Get (fmt.Fscanf)"]}
{"id": "C54", "title": "A negative expiration means expired at once", "statement": "With every protocol an item stored with a negative expiration is absent immediately afterwards: the next Get of its key reports ItemNotFound.", "quantifier": "all keys, values, flags, negative expirations and cache states", "why_tests_cant": "A test fixes one negative number and one protocol; the claim is over the three encodings of every negative number.", "anchors": ["client/server.go: ServerWithTextProtocol.Set", "client/server.go: ServerWithMetaProtocol.Set", "client/server.go: ServerWithBinaryProtocol.Set"]}
{"id": "C55", "title": "Add and Replace blame the right condition", "statement": "Add returns ItemExists only if the key is present and Replace returns ItemNotFound only if the key is absent; any other refusal (for instance a value that is too large) is a different error.", "quantifier": "all cache states, keys and values including those the server refuses for their size", "why_tests_cant": "Needs refusals of every kind in every state, not only the expected one.", "anchors": ["client/server.go: ServerWithTextProtocol.Add", "client/server.go: ServerWithTextProtocol.Replace", "client/server.go: ServerWithMetaProtocol.Add", "client/server.go: ServerWithMetaProtocol.Replace", "client/server.go: ServerWithBinaryProtocol.Add", "client/server.go: ServerWithBinaryProtocol.Replace"]}
{"id": "C56", "title": "GetMulti returns the cas numbers Get returns", "statement": "Every item returned by GetMulti carries the same cas number a Get of its key would return, so it can be used for a later compare-and-swap Set.", "quantifier": "all key lists, cache states and protocols", "why_tests_cant": "A cas of zero looks like a legal item; the difference shows only in a later race.", "anchors": ["client/server.go: ServerWithTextProtocol.GetMulti", "client/server.go: ServerWithMetaProtocol.GetMulti", "client/server.go: ServerWithBinaryProtocol.GetMulti"]}
{"id": "C57", "title": "No argument can crash the client", "statement": "For every argument of every operation, building and sending the request does not panic.", "quantifier": "all operations and all arguments: keys, values, Flags slices of every length", "why_tests_cant": "The crashing argument is a Flags slice of an unusual length, which no example uses.", "anchors": ["client/server.go: ServerWithMetaProtocol.Set", "client/server.go: ServerWithBinaryProtocol.Set", "client/server.go: ServerWithBinaryProtocol.Add", "client/server.go: ServerWithBinaryProtocol.Replace"]}
{"id": "C58", "title": "A call sends its whole request, or it fails", "statement": "When an operation returns without a connection error, the bytes handed to the connection since the call began are exactly the operation's request, whole and in order; nothing left over from an earlier call is sent before it.", "quantifier": "all operations, arguments, protocols, write-buffer states reachable by earlier calls, and points at which the connection stops accepting bytes", "why_tests_cant": "The write buffer's contents depend on every earlier call, and a connection may fail after any number of bytes.", "anchors": ["client/server.go: ServerWithTextProtocol, ServerWithMetaProtocol, ServerWithBinaryProtocol (every conn.Write/Flush)"]}
{"id": "C59", "title": "A write that failed stays failed", "statement": "Once a write to the connection has failed, every later operation on it fails and no byte of a later request reaches the peer, so the peer sees a prefix of the requests in call order and never a request with a hole in it.", "quantifier": "all histories of operations and all points at which the connection fails", "why_tests_cant": "The failure point is any byte of any request of any history.", "anchors": ["client/server.go: ServerWithTextProtocol, ServerWithMetaProtocol, ServerWithBinaryProtocol (conn.Flush)"]}
{"id": "C60", "title": "Close ends the heartbeat goroutine", "statement": "After Close the heartbeat goroutine started with the server ends; it does not keep running (or waiting) for the rest of the process.", "quantifier": "all histories of operations, Close, Reconnect and intervals before the Close, all three protocols", "why_tests_cant": "A leaked goroutine changes no result; it is visible only over the life of the process.", "anchors": ["client/server.go: heartbeat", "client/server.go: ServerWithTextProtocol.Close", "client/server.go: ServerWithMetaProtocol.Close", "client/server.go: ServerWithBinaryProtocol.Close"]}
{"id": "C61", "title": "A reply that cannot be written ends the connection", "statement": "If the connection stops accepting bytes while the server is answering, the client has received a prefix of the reply stream with nothing missing before the cut; every request whose reply was delivered was handled, at most one handled request (the one whose reply was cut) is unacknowledged, no later request on the connection is given to the handler, and the connection is closed. While the replies fit, the failure has no effect.", "quantifier": "all handlers, all client streams, all byte positions at which writing fails, ASCII (text and meta) and binary", "why_tests_cant": "The failing byte may be any byte of any reply, inside or at the edge of the 4096-byte write buffer, and most write errors are ignored by the code.", "anchors": ["server/server.go: Server.serve, serveRequest", "server/server.go: writeAsciiResponse, writeAsciiResponseGet, writeAsciiResponseMetaGet", "server/server.go: writeBinaryResponse, writeAsBinaryProtocol"]}
{"id": "C62", "title": "Connections are served independently", "statement": "With any number of clients connected at once, the requests given to the handler form one sequence that a sequential server could have produced, each connection's requests are in it once each in the order of its stream, and each client is sent exactly the replies to its own requests, in order, as if it were the only client of a server whose handler gave those answers.", "quantifier": "all handlers whose calls are atomic, all client streams, all interleavings of accepting, reading, handling and writing, including connections lost while a reply is written", "why_tests_cant": "The number of interleavings is unbounded; a shared buffer or a captured loop variable would only show under some of them.", "anchors": ["server/server.go: Server.Serve", "server/server.go: Server.serve, serveRequest", "server/server.go: newConn"]}
{"id": "C63", "title": "One client cannot end another client's connection", "statement": "Nothing a client sends ends the process or another client's connection.", "quantifier": "all handlers that never panic and answer properly, all streams, all interleavings", "why_tests_cant": "It must hold for every byte stream of every other client.", "anchors": ["server/server.go: Server.Serve", "server/server.go: conn.readAsciiRequest", "server/server.go: conn.readBinaryRequest"]}
{"id": "C64", "title": "A slow request delays only its own connection", "statement": "While a request of one connection is being handled or its reply is not being read, every other accepted connection can still be served to its end, with the results it would have as the only connection.", "quantifier": "all states the process may be in, all handlers, all streams", "why_tests_cant": "It is a progress claim about every reachable state of all connections.", "anchors": ["server/server.go: Server.Serve (go func)", "server/server.go: Server.serve"]}
{"id": "C65", "title": "Goroutines may share one SinglePool for single-key calls", "statement": "Any number of goroutines may call methods of one SinglePool at the same time. Whatever the interleaving of their writes, the network and the servers, every call of a server method made on their behalf returns what it returns when these calls are made one after the other in the order in which they completed, and every goroutine makes the calls its methods are to make, in order. If only single-key methods of a pool of text servers are called, the completed calls are a history of one single cache that contains each goroutine's calls in the order in which it made them.", "quantifier": "all numbers of goroutines and servers, all programs, all interleavings, all ways in which the network splits and delays bytes", "why_tests_cant": "the interleavings of goroutines, networks and daemons cannot be enumerated; a race shows in a few of them only", "anchors": ["client/client.go:SinglePool", "client/server.go:ServerWithTextProtocol", "client/ring.go:Ring.Pick"]}
{"id": "C66", "title": "Flush of a shared pool removes what was stored before it", "statement": "Flush calls Flush of the servers one after the other and stops at the first that fails, returning its error. If it returned nil, and nobody called a method that could create the key from the time Flush was called, a Get of the key after Flush returned reports that the key is absent, whatever other goroutines did meanwhile.", "quantifier": "all pools, orders in which the server map is visited, programs of the other goroutines, interleavings and protocols (for meta and binary: histories in which C10/C11 hold)", "why_tests_cant": "needs all interleavings of Flush's calls with those of other goroutines", "anchors": ["client/client.go:SinglePool.Flush", "client/ring.go:Ring.Each"]}
{"id": "C67", "title": "Flush of a shared pool is atomic", "statement": "Whole calls of a shared SinglePool, Flush included, have results that one cache executing them one after the other could give, in an order that keeps each goroutine's own order.", "quantifier": "all pools, programs of single-key calls and Flush, interleavings", "why_tests_cant": "needs all interleavings of Flush's calls with those of other goroutines", "anchors": ["client/client.go:SinglePool.Flush", "client/ring.go:Ring.Each"]}
{"id": "C68", "title": "Exactly which requests crash the server", "statement": "With a handler that answers every request, the server process ends exactly when a connection's bytes are complete requests that are all answered, followed by a fatal request: a store whose numeric fields parse and whose data length is at most -2, or is -1 with one more byte following; an ms request with an empty token before any rejected token, or with such a data length; a binary store with fewer than 8 bytes of extras or a total length smaller than extras and key; a binary counter with fewer than 20, or a touch with fewer than 4, bytes of extras. No other bytes end it, and each of these does.", "quantifier": "all byte streams, all handlers that answer, all handler states", "why_tests_cant": "an equivalence over all byte strings: tests find crashing inputs but cannot show that the list is complete", "anchors": ["server/server.go:readAsciiRequest", "server/server.go:readBinaryRequest", "server/server.go:handleConn"]}
{"id": "C69", "title": "The meta client exactly, in every history", "statement": "From a new connection to a conforming memcached, in every history of legal calls, waiting and reconnecting of any length, the meta client's results and the server's state are exactly: those of the cache specification, except that Delete of an absent key reports success, Touch does not touch but invalidates (new cas number, marked stale, new lifetime; an unspecific error when the key is absent), and GetMulti returns only the items before the first absent key. The only condition is that after a GetMulti that met an absent key the connection is renewed before the next call.", "quantifier": "all server states and configurations, all histories of legal calls, waits and reconnections of any length", "why_tests_cant": "C10 fails in full and its restriction excludes whole operations; saying what the client does instead, in every state and history, is a refinement no finite set of runs establishes", "anchors": ["client/server.go:ServerWithMetaProtocol"]}
{"id": "C70", "title": "The binary client exactly, in every history", "statement": "From a new connection to a conforming memcached, in every history of accepted calls (also Add and Replace of items with a cas number, and counters with expiration 2^32-1), waiting and reconnecting, the binary client's results and the server's state are exactly: those of the cache specification, except that Increment and Decrement are refused when the previous calls left a cas number in the pooled request header that is not the counter's, do not create the counter when the expiration is 2^32-1, and report a missing counter with an unspecific error; Add and Replace of an item with a cas number are compare-and-swap; Touch of an absent key gives an unspecific error. The only condition: after a refused Set or Add, and a Touch that is refused or answered with flags, the connection is renewed before the next call.", "quantifier": "all server states and configurations, all initial contents of the pooled header, all histories of accepted calls, waits and reconnections of any length", "why_tests_cant": "C11 fails in full; the exact behaviour depends on the whole history through the pooled header and through unread bytes, so only an induction over histories can say it", "anchors": ["client/server.go:ServerWithBinaryProtocol"]}
{"id": "C71", "title": "GetMulti of a shared pool", "statement": "Whatever other goroutines do on the same SinglePool, in every interleaving: GetMulti calls GetMulti of each server that owns one of the keys exactly once with exactly its keys, returns the error of the first server that fails, and otherwise returns all their items. Every item is of a key asked for, and for each server there is one moment during the call such that each of its keys appears with exactly the item it had then, as often as it was asked for, and not at all if it was absent then. (Desired: one moment for all servers.)", "quantifier": "all pools of servers of all three protocols, all goroutines and programs, all interleavings of their steps, all key lists with repetitions, all orders of the map iteration", "why_tests_cant": "ranges over all interleavings of unboundedly many goroutines with the server calls of one GetMulti", "anchors": ["client/client.go:SinglePool.GetMulti", "client/ring.go:Ring.Pick"]}
{"id": "C72", "title": "Returned items own their memory", "statement": "The Value and Flags of every item returned by Get or GetMulti are on arrays allocated for that item: no two returned items share an array, nor does one share an array with anything the program had before. An item's contents stay what they were, whatever the program does later, unless it writes, appends to or Sets a slice of that item's own arrays other than the whole Value; in particular getting, deleting, incrementing or storing other items, and storing this item again, never changes it. (Desired: no call ever changes a returned item, and writing through Flags never reaches Value.)", "quantifier": "all three clients, all histories of calls, allocations, element assignments and appends, all reply bytes, all capacities chosen by append", "why_tests_cant": "aliasing shows only for particular capacities, orders of calls and lengths; the claim ranges over all of them", "anchors": ["client/server.go:ServerWithTextProtocol.Get", "client/server.go:ServerWithTextProtocol.parseGetResponse", "client/server.go:ServerWithMetaProtocol.parseGetResponse", "client/server.go:ServerWithBinaryProtocol.Get", "client/server.go:ServerWithBinaryProtocol.GetMulti", "client/client.go:Item"]}
{"id": "C73", "title": "A call sends the contents its slices have when it is made", "statement": "A call that is given items whose Value and Flags are slices in memory behaves exactly as the call with their contents at that moment: the bytes sent, the result and the contents of returned items depend on nothing else in memory, so every other property here applies to it.", "quantifier": "all three clients, all operations, all memories, slices with any offset, length and capacity, all states of the connection, all histories", "why_tests_cant": "ranges over all memories and capacities, including bytes a program believes private", "anchors": ["client/server.go:ServerWithBinaryProtocol.Set", "client/server.go:ServerWithBinaryProtocol.Add", "client/server.go:ServerWithBinaryProtocol.Replace", "client/server.go:ServerWithTextProtocol.Set", "client/server.go:ServerWithMetaProtocol.Set"]}
{"id": "C74", "title": "Reading, changing and storing an item", "statement": "A program that Gets an item, changes its Value and Sets it, while nobody else changes it, succeeds and leaves the item with the new value, its flags and its expiry.", "quantifier": "all three clients, all caches, keys, items and values, any delay between the two calls within the lifetime of the item", "why_tests_cant": "the expiry is invisible to a test that does not wait, and the claim ranges over all caches and lifetimes", "anchors": ["client/server.go:ServerWithMetaProtocol.parseGetResponse", "client/server.go:ServerWithMetaProtocol.Set", "client/server.go:ServerWithTextProtocol.Set", "client/server.go:ServerWithBinaryProtocol.Set"]}
{"id": "C75", "title": "Where keys on ring points go, and coinciding points", "statement": "A key whose hash equals a point of the ring goes to a definite server: the owner of the point at which the binary search's last half containing that point ends, which is the point's own server exactly when that part ends there (or at another point of the same server); the key on the middle point goes to the server of the last point. If the points next to a key that is off the points all belong to one server name, the key is routed to that server whatever the order of the server list, and stays there when other servers are removed. (Desired: the order of the server list never matters.)", "quantifier": "all server lists, all sorted rings sort.Slice may produce, all keys", "why_tests_cant": "exact hits and coinciding SHA-1 points are rare for particular names; the claim ranges over all names and all orders an unstable sort may leave", "anchors": ["client/ring.go:Ring.Pick", "client/ring.go:NewRing", "client/ring.go:ringHash"]}
{"id": "C76", "title": "The router with many clients: every request takes effect once", "statement": "While the router serves any number of connections at once, every answered request made exactly one call on the owner of its key in the primary ring and, if it is a set that succeeded there, exactly one call on the owner in the secondary ring, after it was read and before it was answered; its answer is the result of the last of these calls. No other call is ever made on a backend. Each backend executes the calls on it one at a time. Every client gets the replies to its own requests, in order, as if it were alone.", "quantifier": "all numbers of connections and streams of bytes, all backends (arbitrary step functions, so also failing or slow ones), all interleavings of accepting, reading, backend calls, answering, writing and passing time", "why_tests_cant": "ranges over all interleavings of all connections", "anchors": ["cmd/router/main.go:main", "proxy/replica_pool.go:ReplicaPool.ServeRequest", "cluster/cluster.go:ReplicaPool.Get", "cluster/cluster.go:ReplicaPool.Set", "server/server.go:Server.Serve"]}
{"id": "C77", "title": "The router is linearizable and acknowledged sets are seen", "statement": "Take any run of the router with any number of clients, whose backends are memcached servers and whose sets are legal, without a cas number and not too large for the servers. Then the requests answered so far, perhaps with some that are still in progress, can be put in one order, together with the passing of time, such that a router serving them one by one in that order would have given every one of them the answer it got, requests that did not overlap keep their order, and the primary servers hold what they hold. So a get that starts after a set without expiration of its key was acknowledged returns the value of that set or of another set of the key that was not over before it; if no other set was in progress or came later, that set's value.", "quantifier": "all numbers of clients, request streams, primary and secondary server lists, schedules, moments", "why_tests_cant": "ranges over all interleavings of backend calls of all clients", "anchors": ["cmd/router/main.go:main", "proxy/replica_pool.go:ReplicaPool.ServeRequest", "cluster/cluster.go:ReplicaPool.Get", "cluster/cluster.go:ReplicaPool.Set"]}
{"id": "C78", "title": "When the replicas behind the router agree", "statement": "(Desired: whenever no set of a key is in progress, the primary and the secondary hold the same value, flags and expiry for it.) Proved when all sets of the key come over one connection and do not expire, whatever other connections and keys do and whatever time passes. False with two connections writing the key at the same time, both being told STORED, and false with one connection when the item expires: the servers count from different moments, so for a while one has the item and the other does not.", "quantifier": "all runs of the router with any number of clients, all keys, all schedules and delays", "why_tests_cant": "ranges over all interleavings and delays between the two backend calls of a set", "anchors": ["proxy/replica_pool.go:ReplicaPool.ServeRequest", "cluster/cluster.go:ReplicaPool.Set"]}
{"id": "C79", "title": "Meta set options", "statement": "A request 'ms <key> <length> <tokens>' whose tokens are readable, followed by a body of the announced length, is given to the handler as a set of that key with exactly that body, and every option is what its own letter says: cas number, flags, opaque, size and expiration are the number after the last token with their letter (or the default), invalidate, key and no-reply are set exactly if their letter occurs. Tokens of other letters do not matter, nor does the order of tokens with different letters. An unreadable number refuses the request.", "quantifier": "all keys, lengths, lists of tokens (any letters, repetitions, orders), bodies, and bytes that follow", "why_tests_cant": "ranges over all token lists and numbers", "anchors": ["server/server.go:readAsciiRequest"]}
{"id": "C80", "title": "One client of the router cannot disturb another", "statement": "Whatever bytes one client of the router sends, the connections to the backends stay in sync: every answer of a backend is read by the request it belongs to, so that a value another client is given for a key was set under that key, and a get, whatever its key, changes nothing on the backends.", "quantifier": "all rings, backend contents, numbers of clients, request bytes and schedules", "why_tests_cant": "ranges over all request bytes of all clients and all interleavings of their calls", "anchors": ["server/server.go:readAsciiRequest", "server/server.go:readBinaryRequest", "proxy/replica_pool.go:ServeRequest", "client/server.go:Get", "cmd/router/main.go"]}
{"id": "C81", "title": "The router survives the loss of a backend's connection", "statement": "When the router loses its connection to a backend, gets of the keys it was primary for are answered from the secondary, sets succeed on the replica that is left, and once the backend is reachable again it is used again; keys of other backends are served as before.", "quantifier": "all rings, backend contents, numbers of clients, request bytes, schedules and moments at which connections are lost (before, during or between calls)", "why_tests_cant": "ranges over all moments of failure in all interleavings, and over everything that happens afterwards", "anchors": ["cmd/router/main.go:connectServers", "cluster/cluster.go:ReplicaPool", "proxy/replica_pool.go:ServeRequest", "client/server.go:ServerWithMetaProtocol"]}
{"id": "C82", "title": "Goroutines may share a ReplicaPool", "statement": "Any number of goroutines may call Get, Set, Add, Replace, Delete, Increment and Decrement of one ReplicaPool at the same time: what they get is what they would have got had the calls been made one at a time, in an order in which a call that returned before another began comes first, and the primaries hold what that order leaves. In particular no Increment is lost: concurrent Increments return different numbers and the primary holds their sum.", "quantifier": "all rings, backend contents, numbers of goroutines, calls and legal arguments, and all interleavings of their calls on the servers with each other and with the passing of time", "why_tests_cant": "ranges over all interleavings of any number of goroutines", "anchors": ["cluster/cluster.go:ReplicaPool", "client/server.go:ServerWithMetaProtocol"]}
{"id": "C83", "title": "The secondary follows the primary", "statement": "Goroutines share a ReplicaPool in any way, calls fail or succeed, keys are stored, counted, deleted and expire: whenever no write of a key is under way, the server of that key on the secondary ring holds the item that the server on the primary ring holds (value, flags and expiration), or both hold none. So a pool with the two rings exchanged reads the same.", "quantifier": "all rings, backend contents, numbers of goroutines, histories of calls on any keys with legal arguments, failing calls included, all interleavings, all passings of time", "why_tests_cant": "ranges over all histories and interleavings", "anchors": ["cluster/cluster.go:ReplicaPool", "client/server.go:ServerWithMetaProtocol"]}
{"id": "C84", "title": "A meta get is answered with the metadata it asks for", "statement": "A meta get (mg) of one key with any letters is answered with a line naming the size, the letters and, in the order of the letters, one token for each of c (cas number), f (flags), k (key), s (size) and t (time to live), with the values the handler gave, and with the value; a reader of the protocol then stands at the start of the next reply. A meta client can tell the tokens apart and stays in step with the server.", "quantifier": "all keys, all words of letters (repeated, unknown and in any order), all further fields on the line, all handlers and answers, all bytes sent afterwards", "why_tests_cant": "every word of letters, every answer and every later request", "anchors": ["server/server.go:readAsciiRequest", "server/server.go:writeAsciiResponseMetaGet"]}
{"id": "C85", "title": "Timeout bounds every call", "statement": "With a positive Timeout every operation of a server object returns at most Timeout after its turn on the connection, whatever the server does, n operations waiting for one another within n Timeouts; an answer that arrives in time is returned as without a Timeout, at once; with Timeout 0 an operation waits as long as the answer takes.", "quantifier": "all protocols, operations, Timeouts, times, and all behaviours of the peer: when it takes the request, when each byte arrives, when it closes", "why_tests_cant": "every arrival time of every byte and every earlier history of Timeouts", "anchors": ["client/server.go:ServerWithTextProtocol.Timeout", "client/server.go:ServerWithMetaProtocol.Version", "client/server.go:ServerWithTextProtocol.Reconnect"]}
{"id": "C86", "title": "The router survives its clients", "statement": "The process of cmd/router (server.Server, ReplicaPool proxy, meta-protocol backends) never ends because of what clients send, unless one sends a request that ends any server (C68); connections, backends and configuration being otherwise arbitrary, it ends neither on misses nor on refused or failed backend calls.", "quantifier": "all configurations of both rings, all numbers of clients, all client byte streams, all schedules of the connections' goroutines and of time, all states of the backends", "why_tests_cant": "one panic in any goroutine ends the whole process: every interleaving of every client's requests and every backend answer would have to be tried", "anchors": ["cmd/router/main.go:main", "server/server.go:Server.handleConn", "proxy/replica_pool.go:ReplicaPool.ServeRequest", "cluster/cluster.go:ReplicaPool.Set", "client/ring.go:Ring.Pick", "client/server.go:ServerWithMetaProtocol.parseGetResponse"]}
{"id": "C87", "title": "The router's clients share one ReplicaPool", "statement": "Whatever clients send to the router and however their requests interleave, the backends see exactly what they would see from goroutines, one per connection, that call Get and Set on one ReplicaPool: each get or set request is one such call, between its being read and its being answered, and is answered with that call's result; other requests reach no backend.", "quantifier": "all backends (any behaviour), all rings, all numbers of clients, all client byte streams and all schedules of goroutines and time", "why_tests_cant": "every interleaving of the goroutines' calls on the backends counts", "anchors": ["cmd/router/main.go:main", "proxy/replica_pool.go:ReplicaPool.ServeRequest", "cluster/cluster.go:ReplicaPool.Get", "cluster/cluster.go:ReplicaPool.Set", "server/server.go:Server.handleConn"]}
{"id": "C88", "title": "A silent backend delays only the requests that need it", "statement": "While a backend of the router does not answer, exactly the requests that need it wait (gets and sets of keys whose primary it is, sets of keys whose secondary it is), for as long as it is silent; every other request of every other client can be answered meanwhile, however many goroutines wait. The locks of the server objects cause no deadlock and no behaviour that the router without locks does not have.", "quantifier": "all backends (any behaviour), all rings, all numbers of clients, all byte streams, all schedules, any backend being silent from any moment on", "why_tests_cant": "waiting for ever cannot be observed, and every combination of waiting goroutines and held locks would have to be tried", "anchors": ["cmd/router/main.go:main", "client/server.go:ServerWithMetaProtocol.Get", "client/server.go:ServerWithMetaProtocol.Set", "cluster/cluster.go:ReplicaPool.Set", "proxy/replica_pool.go:ReplicaPool.ServeRequest", "server/server.go:Server.handleConn"]}
{"id": "C89", "title": "A handler can refuse a call", "statement": "For every refusal a client call of this library can return (ItemNotFound for Get, Replace, Delete, Touch, Increment and Decrement, ItemExists for Add) there is something a Handler of this library's server can do that makes the call return it.", "quantifier": "all handlers, handler states, protocols, calls and arguments", "why_tests_cant": "a test can show that one handler fails to refuse a call, not that no handler can", "anchors": ["server/server.go:Server.writeAsciiResponse", "server/server.go:Server.writeBinaryResponse", "server/server.go:writeAsBinaryProtocol", "server/server.go:Handler", "client/server.go:ServerWithTextProtocol.Delete"]}
{"id": "C90", "title": "Client and server of this repository, end to end", "statement": "A client and a server of this repository, with a handler that keeps a cache behind it, behave like memcached: the results of a history of calls over one connection are those of memcached's specification, and every call leaves the connection ready for the next.", "quantifier": "all histories of legal calls and passing time, all three protocols, all handlers (for the negative part), all cache contents", "why_tests_cant": "Histories, values and handlers are unbounded; the tests of the repository talk to a real memcached or call the server with single requests.", "anchors": ["client/server.go: ServerWithTextProtocol, ServerWithMetaProtocol, ServerWithBinaryProtocol", "server/server.go: Server.handleConn", "server/server.go: conn.readRequest", "server/server.go: Server.writeResponse"]}
{"id": "C91", "title": "Several clients of one server: calls take effect one at a time", "statement": "However the calls of several clients of this repository, each on its own connection to one server of this repository with a cache behind it, overlap, there is one order of the calls performed so far - each client's own calls in its order, a call answered before another is sent before it - such that the cache and everything the clients have read is what memcached's specification gives for the calls made one after the other in that order.", "quantifier": "all numbers of clients, all sequences of legal calls per client, all interleavings of the connections' goroutines, all ways of cutting replies into pieces, all times passing between requests, all three protocols, every moment of the run", "why_tests_cant": "Interleavings of goroutines on the connections and the sequences of calls are unbounded; a test sees one schedule.", "anchors": ["server/server.go: Server.Serve", "server/server.go: Server.serve", "server/server.go: Server.serveRequest", "client/server.go: ServerWithTextProtocol, ServerWithMetaProtocol, ServerWithBinaryProtocol"]}
{"id": "C92", "title": "The router starts when its backends are there", "statement": "cmd/router connects to every configured backend at its Host and Port, primaries before secondaries and in the order of the configuration, and starts to serve, with rings of the configured names, exactly when all of them (and its own port) can be had; otherwise the process ends without contacting the backends after the first failure.", "quantifier": "all configurations (any number of backends, any hosts and ports) and all behaviours of the network, which may depend on the attempts made before", "why_tests_cant": "Configurations and network behaviours are unbounded; main is not tested at all.", "anchors": ["cmd/router/main.go: connectServers", "cmd/router/main.go: main", "cluster/cluster.go: NewReplicaPool", "client/server.go: NewServerWithMetaProtocol", "server/server.go: Server.ListenAndServe"]}
{"id": "C93", "title": "A failed Accept does not stop the service", "statement": "When accepting a connection fails (for instance because too many files are open), the server goes on: clients that were accepted are served on, later clients are accepted again, and cmd/router does not end.", "quantifier": "all handlers, all moments at which Accept fails, all client streams and schedules; for the router all configurations, backends and limits on open connections", "why_tests_cant": "Accept has to fail at a moment of the test's choosing among arbitrary schedules; every later state has to be examined.", "anchors": ["server/server.go: Server.Serve", "server/server.go: Server.ListenAndServe", "cmd/router/main.go: main"]}
{"id": "C94", "title": "ReplicaPool.GetMulti returns what the Gets would, and leaves the connections in step", "statement": "GetMulti on a ReplicaPool returns, for any mix of present and absent keys, exactly the items that Get returns for the requested keys, and the calls that follow on the pool are answered as if it had not been made.", "quantifier": "all pools, memcached states, key lists of any length, and all later sequences of Gets, of any length, while other clients change the memcacheds arbitrarily in between", "why_tests_cant": "What goes wrong shows only in the calls after the one that caused it, and for ever; every mix of keys and every later history has to be examined.", "anchors": ["cluster/cluster.go: ReplicaPool.GetMulti", "cluster/cluster.go: ReplicaPool.Get", "client/server.go: ServerWithMetaProtocol.GetMulti", "client/server.go: ServerWithMetaProtocol.parseGetResponse"]}
{"id": "C95", "title": "The header pool's choices show only in counters after a compare-and-swap", "statement": "Whichever request header sync.Pool hands to each call of the binary client (a new one or any that was put back, the collector dropping what it likes), every history of calls returns what the specification says, where an Increment or Decrement carries no cas number or that of some earlier Set, Add or Replace; each of these happens for some behaviour of the pool. If no call is given an item with a cas number, the pool's behaviour changes nothing.", "quantifier": "all histories of accepted calls, waiting and reconnecting, all memcached states, and all behaviours of the pool and the garbage collector between and during the calls", "why_tests_cant": "A test program sees one behaviour of sync.Pool, almost always the last header put back; which header a call gets depends on the processor the goroutine runs on and on garbage collections.", "anchors": ["client/server.go: ServerWithBinaryProtocol.incrOrDecr", "client/server.go: NewServerWithBinaryProtocol", "client/server.go: ServerWithBinaryProtocol.getReqHeader", "client/server.go: ServerWithBinaryProtocol.putReqHeader", "client/server.go: binaryRequestHeader.Reset", "client/server.go: binaryResponseHeader.Read"]}
{"id": "C96", "title": "A lost server costs a SinglePool only its own keys", "statement": "When the connections of some servers of a SinglePool are lost, at any moments, every single-key call on a key of another server returns exactly what it would have returned otherwise, and what these calls return is what one single cache returns; calls on the lost servers' keys fail. GetMulti returns the items of the servers that are left, and Flush reaches all of them.", "quantifier": "all pools, all histories of calls and waiting, all moments at which connections are lost (before or after the server has executed the request), all orders in which Go visits the server map", "why_tests_cant": "Each connection can be lost at each call of a history, independently, and the order in which servers are visited is random.", "anchors": ["client/client.go: SinglePool.Get", "client/client.go: SinglePool.GetMulti", "client/client.go: SinglePool.Flush", "client/ring.go: Ring.Pick", "client/ring.go: Ring.Each"]}
{"id": "C97", "title": "Concurrent calls stay atomic while items expire", "statement": "Goroutines share one server object and time passes at any moment, also while a call is under way. Every call returns what memcached's specification says when it is executed as a whole at one moment between its beginning and its end, and every goroutine's calls take effect in the order in which it makes them.", "quantifier": "all numbers of goroutines, all programs of legal calls, all interleavings of goroutine, network and daemon steps, all moments at which time passes", "why_tests_cant": "Expiry has to fall between two steps of one call; the schedules are unbounded in number.", "anchors": ["client/server.go: ServerWithTextProtocol.mu", "client/server.go: ServerWithMetaProtocol.mu", "client/server.go: ServerWithBinaryProtocol.mu", "client/server.go: ServerWithBinaryProtocol.GetMulti"]}
{"id": "C98", "title": "A shared SinglePool is one cache while time passes", "statement": "Goroutines share one SinglePool of text servers and time passes at any moment, also while calls are under way. The pool's single-key calls take effect on one cache holding the items of all servers, each at one moment between its beginning and its end, and each goroutine's calls begin in the order in which it makes them. The calls that Flush and GetMulti make of the single servers take effect at one moment each in the same way. The same holds for pools whose servers are spoken to in the meta or the binary protocol, for the calls that put one command on the wire and read its reply to the end (C100), the pool of meta servers without Delete and Touch; and the calls of the single servers take effect in this way also when the servers of one pool have different protocols.", "quantifier": "all rings of servers, all numbers of goroutines, all programs of legal calls, all interleavings of goroutine, network and daemon steps, all moments at which time passes", "why_tests_cant": "The schedules are unbounded in number, and expiry has to fall between two steps of overlapping calls on different servers.", "anchors": ["client/client.go: SinglePool", "client/client.go: SinglePool.Get", "client/client.go: SinglePool.GetMulti", "client/client.go: SinglePool.Flush", "client/ring.go: Ring.Pick", "client/server.go: ServerWithTextProtocol.mu"]}
{"id": "C99", "title": "Many clients of one memcached are one cache, whatever connections are lost", "statement": "Any number of text server objects, in any number of processes, each with its own connection to one memcached and shared by any number of goroutines, are used concurrently; time passes and connections are lost at any moment, with any part of what was under way. Every call takes effect at most once, not before it begins; a call that returns something else than an io error has taken effect before it returns and returns what the cache answered then. A call that fails with an io error can still take effect after it has returned. Of the compare-and-swap Sets of one key with one cas number, at most one succeeds.", "quantifier": "all numbers of clients and goroutines, all programs of legal calls, all interleavings of client, network and daemon steps, all moments of losses and of the passing of time, all parts of the requests and replies that still arrive", "why_tests_cant": "The moments at which connections can be lost between the steps of concurrent calls are unbounded in number, and the effect of a failed call can come arbitrarily late.", "anchors": ["client/server.go: NewServerWithTextProtocol", "client/server.go: ServerWithTextProtocol.mu", "client/server.go: ServerWithTextProtocol.Get", "client/server.go: ServerWithTextProtocol.Set"]}
{"id": "C100", "title": "Text, meta and binary clients of one memcached see one cache", "statement": "Any number of server objects, each with the text, the meta or the binary protocol, its own connection to one memcached and its own mutex, are shared by any number of goroutines of any number of processes; time passes and connections are lost at any moment, with any part of what was under way. The calls are such as put one command on the wire and read its reply to the end: all of the text client's, the meta client's but GetMulti, the binary client's Get, Set and Replace without cas number (Set of values that fit), Delete, Increment, Decrement, Flush and Version; flags and expirations are such as all protocols can express. Then every call takes effect at most once, not before it begins; a call that returns something else than an io error has taken effect before it returns and returns what its protocol makes of the cache's answer; except for the meta client's Delete and Touch that is what the one cache of the specification answers. Of the compare-and-swap Sets of one key with one cas number, through whatever protocols, at most one succeeds. GetMulti of the meta and of the binary client is left out for a reason: a Flush by another client in the middle of it makes it return one of two items, which no moment allows.", "quantifier": "all numbers of clients and goroutines, all assignments of protocols, all programs of such calls, all interleavings of client, network and daemon steps, all moments of losses and of the passing of time, all parts of the requests and replies that still arrive", "why_tests_cant": "The interleavings of the steps of concurrent calls with each other and with losses are unbounded in number, and every pair of protocols must agree about every item the other one stored.", "anchors": ["client/server.go: NewServerWithTextProtocol", "client/server.go: NewServerWithMetaProtocol", "client/server.go: NewServerWithBinaryProtocol", "client/server.go: ServerWithMetaProtocol.Set", "client/server.go: ServerWithBinaryProtocol.Set"]}
{"id": "C101", "title": "Every call on a shared server object can return, whatever connections were lost and whoever waits", "statement": "In the setting of C100 (any number of server objects with text, meta or binary protocol, shared by any number of goroutines, connections lost at any moment in the middle of requests and of replies, time passing at any moment): at every moment, every call that has begun and has not returned can return, after at most one other call (the one that holds the object's mutex) has returned. On an object whose connection has not been lost both return something else than an io error. So a lost connection, an io error and a waiting goroutine never leave a mutex locked or a call stuck for ever, and every goroutine can make all the calls it is to make and have them return: there is always a next thing that goroutine, network or daemon can do.", "quantifier": "all numbers of clients and goroutines, all assignments of protocols, all programs of such calls, all reachable states, that is all interleavings of client, network and daemon steps and all moments of losses, all calls under way in them", "why_tests_cant": "A test sees that a call returned in the schedules it happened to run, not that no reachable state, out of unboundedly many, leaves a mutex locked by a call that has failed.", "anchors": ["client/server.go: ServerWithTextProtocol.Get", "client/server.go: ServerWithTextProtocol.Set", "client/server.go: ServerWithMetaProtocol.Set", "client/server.go: ServerWithBinaryProtocol.Set"]}
{"id": "C102", "title": "Every goroutine that shares a SinglePool can finish", "statement": "Any number of goroutines share one pool of any number of servers, each server spoken to in the text, meta or binary protocol by calls that put one command on the wire and read its reply to the end; all their steps, those of the network and those of the daemons interleave in any order, and time passes at any moment. At every moment of every run, every goroutine can come to the end of what it is to do, with all calls it makes of servers returning, whatever they return: no goroutine waits for ever for a mutex, for an answer, or for a server another goroutine holds.", "quantifier": "all numbers of servers and goroutines, all assignments of protocols, all programs of such calls (bounded in length, results deciding what follows), all reachable states, that is all interleavings of client, network and daemon steps with the passing of time, all goroutines", "why_tests_cant": "That no reachable state is a deadlock is a statement about every interleaving; a test that hangs shows one, a test that passes shows nothing about the others.", "anchors": ["client/client.go: SinglePool.GetMulti", "client/client.go: SinglePool.Set", "client/server.go: ServerWithTextProtocol.mu"]}
