{"id": "C01", "title": "Buffer writes are never lost or reordered", "statement": "After any sequence of Write/WriteByte/WriteString/WriteUint16/32/64/WriteVarint/WriteZigzag32/WriteZigzag64 calls on a BytesBuffer of any initial capacity, Bytes() is exactly the concatenation, in call order, of the encodings of the written values; growing the backing array never loses, duplicates or corrupts an already written byte.", "quantifier": "every initial capacity (including 0) and every finite sequence of write calls with every argument", "why_tests_cant": "capacity growth is triggered by particular size/position combinations; the space of sequences and capacities is unbounded", "anchors": ["core/bytes.go: BytesBuffer, grow, Write, WriteByte, WriteString, WriteUint16, WriteUint32, WriteUint64, WriteVarint, WriteZigzag32, WriteZigzag64, Bytes"]}
{"id": "C02", "title": "Integers written to a buffer are read back exactly", "statement": "For every uint64 (varint, fixed 64), uint32 (fixed 32), uint16 (fixed 16), int32 (zigzag32) and int64 (zigzag64), writing the value and then reading with the matching Read call returns that value with no error and leaves the read position exactly behind the written bytes, whatever follows; a fixed-width read with fewer remaining bytes than its width returns an error and consumes nothing. Read into n bytes gives the next n unread bytes of a received buffer, or all that remain, and says so at the end. (Refuted: on a buffer that was written to, Read stays within what was written.)", "quantifier": "every representable integer and every suffix of bytes", "why_tests_cant": "2^64 values and arbitrary trailing data cannot be enumerated", "anchors": ["core/bytes.go: WriteVarint, ReadVarint, WriteZigzag32, ReadZigzag32, WriteZigzag64, ReadZigzag64, ReadUint16, ReadUint32, ReadUint64, ReadInt"]}
{"id": "C03", "title": "motan2 messages survive the wire", "statement": "For every motan2 message (header fields, request id, string metadata, body) within the size limits, decoding the encoded bytes followed by any further bytes yields a message with the same header fields, request id and body, whose metadata are exactly the encodable entries of the original (non-empty key, non-empty value, no newline in either), and leaves exactly the further bytes unread.", "quantifier": "every message, every metadata map in every iteration order, every body, every trailing byte string", "why_tests_cant": "round trip over all byte strings, maps and header bit patterns", "anchors": ["protocol/motanProtocol.go: Encode0, Encode, GetEncodedBytes, Decode, DecodeWithTime, readBytes"]}
{"id": "C04", "title": "Back-to-back motan2 messages are framed correctly", "statement": "Any finite sequence of encoded motan2 messages concatenated on one connection is decoded into the same sequence of messages in order, with nothing left over.", "quantifier": "every finite sequence of messages", "why_tests_cant": "framing errors depend on length combinations across messages; sequences are unbounded", "anchors": ["protocol/motanProtocol.go: Encode, Decode, DecodeWithTime", "server/motanserver.go: handleConn", "endpoint/motanCommonEndpoint.go: recvLoop"]}
{"id": "C05", "title": "motan2 decoding rejects foreign and oversized frames", "statement": "Decode never returns a message unless the stream starts with the motan magic number and both declared metadata and body sizes are within the limit; it never consumes more than header + declared metadata + declared body, and returns an error for every truncated frame.", "quantifier": "every byte string and every size limit", "why_tests_cant": "adversarial byte streams are unbounded", "anchors": ["protocol/motanProtocol.go: DecodeWithTime, CheckMotanVersion, readBytes"]}
{"id": "C06", "title": "motan2 header fields are independent", "statement": "Setting any header field (heartbeat, gzip, one-way, proxy, request/response, version, status, serialize number) to any value in its range makes the corresponding getter return that value and does not change any other getter.", "quantifier": "every 32-bit header state and every in-range value of every field, hence every sequence of setter calls", "why_tests_cant": "bit-packing bugs show only for particular field combinations", "anchors": ["protocol/motanProtocol.go: Header, SetVersion, SetHeartbeat, SetGzip, SetOneWay, SetProxy, SetRequest, SetStatus, SetSerialize and getters"]}
{"id": "C07", "title": "Simple serialization round-trips every supported value", "statement": "For every value built from nil, string, map[string]string, []byte, []string, bool, byte, int16, int32, int64, float bit patterns, arrays and maps of such values nested to any depth, DeSerialize(Serialize(v)) gives v back (with the documented normalisations: int widths widen and an empty container may come back nil), and decoding consumes exactly the bytes that were produced.", "quantifier": "every value of every nesting depth", "why_tests_cant": "recursive data of unbounded depth and size", "anchors": ["serialize/simple.go: Serialize, serializeBuf, DeSerialize, deSerializeBuf and the encode/decode helpers"]}
{"id": "C08", "title": "Multiple arguments keep their number and order", "statement": "DeSerializeMulti(SerializeMulti(args)) returns the same number of values in the same order for every argument list.", "quantifier": "every finite list of supported values", "why_tests_cant": "argument lists are unbounded", "anchors": ["serialize/simple.go: SerializeMulti, DeSerializeMulti"]}
{"id": "C09", "title": "Simple deserialization of arbitrary bytes is safe", "statement": "Decoding any byte string with the simple serialization terminates, never reads outside the received bytes and returns a value, returns an error, or, only when the bytes contain the tag of a map, panics. Every truncation of a single encoded value is reported as an error. (That it never panics, and that truncated argument lists are always reported, is false of the code; see the refuted theorems.)", "quantifier": "every byte string", "why_tests_cant": "hostile input space is unbounded; nesting and length fields are attacker-controlled", "anchors": ["serialize/simple.go: deSerializeBuf and decode helpers", "core/bytes.go: Read*, Next"]}
{"id": "C10", "title": "Request and response conversion preserve the call", "statement": "Converting a motan request into a wire message and back preserves request id, service, method, method description and every attachment; converting a response preserves request id, value bytes, exception and attachments.", "quantifier": "every request/response and every attachment map", "why_tests_cant": "every combination of attachments and reserved metadata keys", "anchors": ["protocol/motanProtocol.go: ConvertToReqMessage, ConvertToRequest, ConvertToResMessage, ConvertToResponse"]}
{"id": "C11", "title": "motan1 block framing is lossless", "statement": "Content of any non-empty length written as motan1 (Java object stream) block data and read back by the block reader yields the same content and leaves the reader at the first byte after the blocks, exactly when the content is not a multiple of 1024 bytes, or nothing follows it, or it is one full block not followed by another block. (For the other contents the reader swallows a byte or the next block; see the refuted theorem.)", "quantifier": "every content length and every following data", "why_tests_cant": "block boundaries at multiples of 1024/256 interact with the byte that follows", "anchors": ["protocol/motan1Protocol.go: writeBlock, writeBlockHeader, getBlock, appendBlockBytes"]}
{"id": "C12", "title": "motan1 proxying only changes attachments", "statement": "When a motan1 request is decoded, its attachments are modified and it is encoded again, service, method, parameter description and argument bytes are unchanged and the decoded attachments are the modified ones. This holds for requests in the layout of the Java client whose call target does not fill two or more blocks exactly. (False of the others: attachments in a block of their own without arguments, and targets of exactly 2048, 3072, ... bytes; see the refuted theorems.)", "quantifier": "every request, argument byte string and attachment map within the 16-bit string limit", "why_tests_cant": "all argument byte strings and attachment maps", "anchors": ["protocol/motan1Protocol.go: encodeMotanV1, encodeMotanV1Attachment, parseReq, readAttachments, writeUtfStr, readUtfFromBlock"]}
{"id": "C13", "title": "Generated request ids do not collide", "statement": "Any 2^20 consecutive ids produced by GenerateRequestID in one process are pairwise distinct, whatever the clock returns (including clock steps backwards).", "quantifier": "every sequence of clock readings, every interleaving of callers, every counter start", "why_tests_cant": "clock behaviour and wrap-around at 2^20 calls", "anchors": ["endpoint/endpoint.go: GenerateRequestID"]}
{"id": "C14", "title": "Load balancers pick only available endpoints, and pick one whenever one exists", "statement": "The random and round-robin load balancers return an available endpoint whenever at least one is available, and nil otherwise; SelectArray returns only available endpoints, never more than three, and at least one whenever one is available.", "quantifier": "every endpoint list, availability vector, start index / random draw", "why_tests_cant": "availability vectors and random indices are unbounded", "anchors": ["lb/randomLb.go: Select, SelectArray", "lb/roundrobinLb.go: Select, SelectArray", "lb/lb.go: SelectArrayFromIndex, SelectOneAtRandom"]}
{"id": "C15", "title": "Round robin is fair", "statement": "Over any window of k*n consecutive selections from n permanently available endpoints, round robin selects each endpoint exactly k times while the 32-bit counter does not wrap inside the window, and between k-1 and k+1 times if it does. (Exactly k times across the wrap is false; see the refuted theorem.)", "quantifier": "every n, k and start counter", "why_tests_cant": "windows of every length and offset", "anchors": ["lb/roundrobinLb.go: Select"]}
{"id": "C16", "title": "Weighted round robin honours the weights exactly", "statement": "With the ring selector, every window of sum(weights) consecutive selections selects endpoint i exactly weight_i times (weights divided by their common gcd); with the round-robin selector each endpoint exactly once per n selections, both until the selection counter wraps at 2^63; with the window selector over at most 50 endpoints weights are honoured exactly from installation on, and over more endpoints the window has between 2 and 50 endpoints and a size that does not divide their number. (Across the 2^63 wrap exactness is false; see the refuted theorem.)", "quantifier": "every weight vector and every start position", "why_tests_cant": "distribution over all weight vectors", "anchors": ["lb/weightRoundRobinLb.go: NotifyWeightChange, weightedRingSelector, roundRobinSelector", "lb/lb.go: findGcd"]}
{"id": "C17", "title": "Group weights are honoured exactly", "statement": "With group weights, one full cycle of the weighted load balancer selects every group exactly weight/gcd times and only groups with endpoints.", "quantifier": "every assignment of weights to groups", "why_tests_cant": "all weight vectors, including zero and missing weights", "anchors": ["lb/lb.go: WeightedLbWrapper.OnRefresh, Select, selectNext, findGcd"]}
{"id": "C18", "title": "Consistent hashing is stable", "statement": "For a fixed endpoint list the same hash key always yields the same endpoint when it is available; fallback stays within the list and is available. The ring in use is the one built for the current list with at least two partitions for each endpoint, and the number of partitions changes only when it has become too small.", "quantifier": "every endpoint list, every history of refreshes and every key", "why_tests_cant": "all key/endpoint combinations", "anchors": ["lb/consistentHashKeyLb.go: Select, buildConsistent"]}
{"id": "C19", "title": "Failover makes at most retries+1 attempts and stops at the first conclusive answer", "statement": "FailoverHA.Call invokes at most retries+1 endpoints, returns the first response that has no exception or a business exception, and otherwise the response of the last attempt; it never retries after a conclusive answer.", "quantifier": "every retry setting and every sequence of endpoint answers and selections", "why_tests_cant": "all fault sequences", "anchors": ["ha/failoverHA.go: Call"]}
{"id": "C20", "title": "Backup requests are bounded per call and per counting round", "statement": "With the backup-request strategy one call sends at most retries+1 requests; between two resets of the strategy's counters (after 101 calls or 20 seconds) all calls together send at most maxRetryRatio backup requests; the caller gets a final answer that an endpoint gave to this call or a timeout error carrying the request's own id, a late answer never changes it, and no goroutine blocks on delivering an answer. The ratio is not a ratio of the traffic of a short round, and a call all of whose requests have failed may still wait for its deadline (both shown by counterexample).", "quantifier": "every configuration, every number of concurrent calls, every interleaving of answers, timers and permits", "why_tests_cant": "The bound must hold for all interleavings of concurrent calls sharing the counters and for all orders in which answers, errors and timers arrive.", "anchors": ["ha/backupRequestHA.go: BackupRequestHA.Call, doCall, updateCallRecord, tryAcquirePermit"]}
{"id": "C21", "title": "The cluster never discards its last good endpoint list", "statement": "Once a cluster has endpoints, no sequence of registry notifications makes its endpoint list empty; after each notification it consists exactly of the union of the last non-empty lists of the registries, endpoints whose URL stays are reused (not rebuilt), and no endpoint in use is scheduled for destruction.", "quantifier": "every sequence of notifications from any number of registries", "why_tests_cant": "notification histories are unbounded", "anchors": ["cluster/motanCluster.go: Notify, refresh, filterRefers"]}
{"id": "C22", "title": "Exclude and include rules select exactly the intended endpoints", "statement": "The refers filter keeps an endpoint iff no exclude rule matches it and either there are no include rules or some include rule matches, and preserves the order.", "quantifier": "every rule set and endpoint list", "why_tests_cant": "all rule/endpoint combinations", "anchors": ["cluster/RefersFilter.go: Filter"]}
{"id": "C23", "title": "Traffic-control route rules select exactly the nodes the rules allow", "statement": "Routing keeps a node iff, for every rule that applies to the local address, the node's host matches the rule's target (with ! negation and * wildcards handled as documented), and nodes are never invented.", "quantifier": "every rule list and node list", "why_tests_cant": "all rules/addresses", "anchors": ["cluster/command.go: processRoute, isMatch, buildRuleURL"]}
{"id": "C24", "title": "The command in force is the first that matches, and other groups are watched exactly while it names them", "statement": "For every history of command and node notifications the command in force is the lowest-index matching traffic command, agent commands override service commands, and the set of additional subscribed groups equals the groups the command in force merges, minus the cluster's own group. Of degrade commands that concern the service, and of switcher commands whatever their pattern, the one of highest index counts, again the agent's text before the service's.", "quantifier": "every history of notifications", "why_tests_cant": "histories are unbounded", "anchors": ["cluster/command.go: processCommand, processTcCommand, mergeCommand, getCurrentTcCommand, NotifyCommand, Notify"]}
{"id": "C25", "title": "Filters wrap a call in order, each exactly once", "statement": "Every request passes through all configured filters exactly once, in index order, before reaching the endpoint/provider, and the response passes back in the reverse order.", "quantifier": "every filter list and every call", "why_tests_cant": "filter combinations", "anchors": ["cluster/motanCluster.go: addFilter, NewCluster", "core/motan.go: GetEndPointFilters, lastEndPointFilter", "server/server.go: WrapWithFilter, FilterProviderWrapper"]}
{"id": "C26", "title": "Fail-fast breaker opens exactly after the threshold of consecutive errors", "statement": "An endpoint guarded by the fail-fast filter is reported unavailable iff at least the threshold of consecutive failures has been seen since the last success and the probe window has not elapsed; in one window at most one probe is admitted however many goroutines ask.", "quantifier": "every history of results, clock values and every interleaving of callers", "why_tests_cant": "interleavings and histories", "anchors": ["filter/failfast.go: Filter, IsAvailable"]}
{"id": "C27", "title": "Responses are delivered to the call that asked", "statement": "With unique request ids, a call on a channel that returns a response returns the response carrying its own request id, for every interleaving of senders, receiver, timeouts and stream reuse; the receive loop is never blocked by a call that has given up.", "quantifier": "every interleaving of concurrent calls, responses, timeouts and pool reuse", "why_tests_cant": "schedules are unbounded and races are rare", "anchors": ["endpoint/motanCommonEndpoint.go: Channel.Call, Stream.Send, Stream.Recv, Stream.notify, newStream, handleMsg, acquireStream, releaseStream"]}
{"id": "C28", "title": "An endpoint becomes unavailable exactly at the error threshold and recovers through one keepalive", "statement": "Consecutive call errors below the threshold keep the endpoint available; reaching it marks it unavailable and starts at most one keepalive loop; a successful call resets the count; a successful keepalive makes it available again.", "quantifier": "every history of results and every interleaving", "why_tests_cant": "histories and interleavings", "anchors": ["endpoint/motanCommonEndpoint.go: recordErrAndKeepalive, resetErr, keepalive"]}
{"id": "C29", "title": "The channel pool never creates or loses channels", "statement": "ChannelPool.Get/ret keep the number of slots constant: never more live channels than the pool size, a closed channel is replaced on the next Get, and after Close every Get fails.", "quantifier": "every sequence of get/return/close/failure", "why_tests_cant": "histories", "anchors": ["endpoint/motanCommonEndpoint.go: ChannelPool Get, retChannelPool, Close"]}
{"id": "C30", "title": "Request timeouts stay within configured bounds", "statement": "The timeout applied to a request is the per-request timeout when it lies in [min,max] for the method and the configured method/service timeout otherwise, hence always positive.", "quantifier": "every combination of url parameters and attachments", "why_tests_cant": "all parameter combinations", "anchors": ["endpoint/motanCommonEndpoint.go: GetRequestTimeout"]}
{"id": "C31", "title": "Every answered motan2 server request gets its own id back", "statement": "Whatever the handler returns (nil, exception, value, other id), the bytes the server writes for a decoded non-heartbeat request carry that request's id and are a response; heartbeats are answered by a heartbeat with the same id.", "quantifier": "every request and every handler behaviour", "why_tests_cant": "handlers are arbitrary", "anchors": ["server/motanserver.go: processV2"]}
{"id": "C32", "title": "Requests are dispatched to the provider registered for the service", "statement": "The message handler calls exactly the provider last added (and not removed) for the requested service, answers provider-not-exist otherwise and turns a panic into an exception.", "quantifier": "every history of AddProvider/RmProvider and every request", "why_tests_cant": "histories", "anchors": ["server/server.go: DefaultMessageHandler", "agent.go: serverAgentMessageHandler"]}
{"id": "C33", "title": "Export and unexport are balanced", "statement": "A service is registered in exactly the configured and known registries when exported; exporting again is an error; unexport unregisters what was registered and is idempotent.", "quantifier": "every sequence of Export/Unexport and registry configuration", "why_tests_cant": "histories", "anchors": ["server/server.go: DefaultExporter Export, Unexport"]}
{"id": "C34", "title": "URLs survive their string form", "statement": "FromExtInfo(ToExtInfo(u)) has the same protocol, host, port, path, group and parameters as u for every URL whose parts avoid the separators.", "quantifier": "every URL", "why_tests_cant": "all strings", "anchors": ["core/url.go: ToExtInfo, FromExtInfo"]}
{"id": "C35", "title": "URL integer parameters are coherent with the latest value put", "statement": "After any sequence of PutParam and integer reads, an integer read returns the value parsed from the most recent PutParam (or the default if absent or unparsable), in spite of caching; string, port and address reads likewise, and identity reads unless the address of a direct URL is changed. (False of MergeParams, of the identity of direct URLs and of a PutParam concurrent with an integer read; see the refuted theorems.) A duration is the number times the unit when the number fits 32 bits, else the default; a boolean is read from the twelve texts of strconv.ParseBool, else the default.", "quantifier": "every sequence of puts and reads", "why_tests_cant": "cache staleness depends on histories", "anchors": ["core/url.go: GetInt, PutParam, GetPositiveIntValue, GetMethodIntValue, ClearCachedInfo"]}
{"id": "C36", "title": "A registered URL serves a subscription iff the documented compatibility rules hold", "statement": "CanServe accepts a client URL exactly when the protocols are compatible (equal, motan2 serving motan, or a local server), the paths are equal, the serializations are equal unless the server speaks motan2, and the versions are equal when a missing version is read as 0.1 or as 1.0; IsMatch accepts exactly when the path is equal and every non-empty part of the request (group, protocol, version) matches, a URL without a version matching every version.", "quantifier": "every pair of URLs", "why_tests_cant": "all parameter combinations", "anchors": ["core/url.go: CanServe, CanServeProtocol, IsSame, IsMatch"]}
{"id": "C37", "title": "The circular recorder remembers exactly the last N records", "statement": "After any sequence of AddRecord calls on a recorder of positive size N, GetRecords returns exactly the most recent min(N, count) non-nil records, oldest first, under distinct keys 'index:timestamp'. A size below one crashes on the first record and concurrent GetRecords calls can return corrupted keys (both shown by counterexample).", "quantifier": "every capacity, every history of records and times", "why_tests_cant": "It must hold for every history length relative to the capacity, and for every interleaving of readers.", "anchors": ["core/motan.go: CircularRecorder.AddRecord, GetRecords, generateRecordKey"]}
{"id": "C38", "title": "Copy-on-write maps behave as maps and iterate over a snapshot", "statement": "Every interleaving of Store, Delete, Swap, SafeDoFunc, Load, Len and Range on a CopyOnWriteMap gives the results of an ordinary map whose writes take effect one at a time, and an iteration lists exactly the map as it was when the iteration began. UnsafeStore outside SafeDoFunc can lose an update (counterexample).", "quantifier": "every number of threads, every interleaving, every history", "why_tests_cant": "Linearizability quantifies over all interleavings of readers and writers.", "anchors": ["core/map.go: CopyOnWriteMap"]}
{"id": "C39", "title": "Switchers are a map of booleans and listeners hear every change exactly once", "statement": "Registering, setting, watching and reading switchers behaves as a map from names to booleans; every listener watching at the moment of a change gets exactly one notification with the new value and no other notification exists; the order of two notifications is not guaranteed, so the last one heard may be stale, and setting a switcher with an empty name crashes (both shown by counterexample).", "quantifier": "every operation history and every schedule of the notifying goroutines", "why_tests_cant": "histories and goroutine schedules", "anchors": ["core/switcher.go: SwitcherManager.Register, SetValue, IsOpen, GetAllSwitchers; Switcher.Watch, SetValue"]}
{"id": "C40", "title": "HTTP locations are matched with nginx priority", "statement": "Pick returns the exact location if one equals the path, otherwise the first matching regular expression in configuration order, otherwise the longest matching prefix. The first field of a rewrite rule is one of the words regexp, iregexp, start, exact and regexpVar, each for its own kind of condition.", "quantifier": "every location list, every path, every regexp oracle", "why_tests_cant": "all configurations", "anchors": ["http/httpProxy.go: LocationMatcher Pick, NewLocationMatcher"]}
{"id": "C41", "title": "Configuration merging overrides deeply", "statement": "Merging configs keeps every key present in only one of them, lets the later config override scalars, recurses into maps and appends lists, at every depth.", "quantifier": "every pair of configuration trees", "why_tests_cant": "recursive data", "anchors": ["config/config.go: Merge, mergeMap"]}
{"id": "C42", "title": "Graphite packing loses nothing", "statement": "Packing metric lines into datagrams keeps every line, in order, and every datagram is within the size limit unless it holds the lines of a single metric; lines of different metrics carry different names.", "quantifier": "every list of snapshots, with any keys and metrics, of any size", "why_tests_cant": "all sizes", "anchors": ["metrics/graphite.go: GenGraphiteMessages"]}
{"id": "C43", "title": "Counters are neither lost nor double-counted across snapshots", "statement": "For every interleaving of callers, event processors and reporters, every addition sent for a key is in exactly one place: one snapshot, the live value, waiting, being processed, or refused by a full bus; a snapshot that nobody is still adding to never changes, and if reports read only such snapshots then the sum over all reports plus the live value and what is still on its way equals the sum of the additions (as 64 bit integers).", "quantifier": "every operation history and every interleaving of recorder and reporter", "why_tests_cant": "races between recorder and reporter", "anchors": ["metrics/metrics.go: AddCounter, SnapshotAndClear, ReadonlyStatItem"]}
{"id": "C44", "title": "Agent availability survives a crash", "statement": "Once a call to make all services available has returned and no call is just writing the status file, a crash followed by a start in recover mode makes the agent and its services available again, whatever calls happened before or overlapped; a start that is not in recover mode is unavailable. (That unavailability is remembered as well is refuted.)", "quantifier": "all histories of set-available and set-unavailable calls, every overlap and every crash point", "why_tests_cant": "crash points", "anchors": ["agent.go: SetAllServicesAvailable, SetAllServicesUnavailable, saveStatus, recoverStatus"]}
{"id": "C45", "title": "An unexported or unregistered service is really gone", "statement": "Unregistering a service takes it off the list of run-time registrations at once, and after the next start in recover mode exactly the services of the configuration and the still registered services that can be exported are exported. (That it is unexported at once is refuted: no service ever is until the next start.)", "quantifier": "all histories of register, unregister and subscribe requests, all overlaps, crash points and suffix settings", "why_tests_cant": "histories", "anchors": ["agent.go: doExportService, UnexportService", "dynamicConfig.go: doRegister, doUnregister"]}
{"id": "C46", "title": "ZooKeeper session recovery restores exactly the intended nodes", "statement": "For every history of registering, unregistering, making available and unavailable, with connection losses and session expiries at any point: whenever the connection is up and its events have been handled, the registry holds a server node for exactly the registered services that were last made available and an unavailable node for exactly the other registered services, and no other node of this session. Services must have distinct places (group, path, address), be made unavailable before they are unregistered (and be unregistered while connected), and all services made available by one call must all still be available when a session is recovered. (Without these conditions it is refuted: 'available for all' revives services made unavailable or registered later, unregistering does not forget availability, unregistering in the gap of a lost connection leaves the node; and calls made while disconnected are dropped.) An agent's own node is made below its application. (Refuted: UnRegister removes an agent's node; an agent is never put among the servers of a service.)", "quantifier": "every history of register/unregister/available/unavailable/connection loss/expiry/reconnect and every order in which the events are handled", "why_tests_cant": "histories with session loss at any point", "anchors": ["registry/zkRegistry.go: Register, UnRegister, Available, Unavailable, recoverService, handleNewSession"]}
{"id": "C47", "title": "Rate limiting never admits more than the bucket allows", "statement": "Over every time window the number of requests admitted by the limiter is at most capacity + rate * window.", "quantifier": "every arrival history", "why_tests_cant": "histories", "anchors": ["filter/rateLimit.go"]}
{"id": "C48", "title": "Requests are routed to a cluster that matches", "statement": "Whatever was started, subscribed and reloaded: the agent answers with a cluster only if it serves the requested service, and with several candidates only with the first that matches in group, protocol and version; it refuses only when the service is missing or unknown, or, with several candidates, when the group is missing or nothing matches.", "quantifier": "every service map and request", "why_tests_cant": "all configurations", "anchors": ["agent.go: findCluster, initCluster, reloadClusters"]}
{"id": "C49", "title": "Group lists are split, trimmed and deduplicated in order", "statement": "TrimSplit and SlicesUnique keep every distinct element once in first-occurrence order; splitting a joined list returns the trimmed elements.", "quantifier": "every string and separator", "why_tests_cant": "all strings", "anchors": ["core/util.go: TrimSplit, SlicesUnique"]}
{"id": "C50", "title": "Shuffling never loses an endpoint", "statement": "Shuffling URL and endpoint lists yields a permutation of the input for every sequence of random draws.", "quantifier": "every list and every random sequence", "why_tests_cant": "all draws", "anchors": ["core/util.go: EndpointShuffle, ByteSliceShuffle", "lb/lb.go"]}
{"id": "C51", "title": "motan1 framing is exact", "statement": "Reading a motan1 message returns a message only when the outer size, inner size, inner magic and the size limit agree; exactly that frame's bytes are consumed, a cut-off frame is an error, and frames sent back to back are read as the same sequence.", "quantifier": "every byte stream and every list of frames", "why_tests_cant": "all byte streams and all cut points", "anchors": ["protocol/motan1Protocol.go: ReadV1Message"]}
{"id": "C52", "title": "Decoding arbitrary motan1 bytes is safe", "statement": "Decoding the object stream of any motan1 request or response terminates with a decoded message or an error, except that a stream that breaks off right behind the tag of a short block, or inside the byte array of a response value, may make it panic. (That it never panics is false of the code; see the refuted theorem.)", "quantifier": "every byte string", "why_tests_cant": "every malformed input", "anchors": ["protocol/motan1Protocol.go: DecodeMotanV1Request, DecodeMotanV1Response, parseReq, parseRes, getBlock, skipArgs, skipByteArray"]}
{"id": "C53", "title": "motan1 control messages are understood by the peer", "statement": "Heartbeat requests and responses are recognised as such with the same id; an error response carries the id and the message; rewriting a response's id changes nothing else.", "quantifier": "every request id, error message and response frame", "why_tests_cant": "all ids and messages", "anchors": ["protocol/motan1Protocol.go: BuildV1HeartbeatReq, BuildV1HeartbeatRes, BuildV1ExceptionResponse, EncodeMotanV1Response"]}
{"id": "C54", "title": "An agent forwards messages faithfully", "statement": "A motan2 request that an agent receives, compressed or not, and sends on keeps its argument bytes, id, serialization, one-way flag and attachments (with the group it is routed to); a proxied response keeps its metadata, status and body.", "quantifier": "every received message, attachment change and compression threshold", "why_tests_cant": "all messages and thresholds", "anchors": ["protocol/motanProtocol.go: ConvertToRequest, ConvertToReqMessage, ConvertToResMessage, EncodeMessageGzip"]}
{"id": "C55", "title": "Weighted round robin picks only available endpoints", "statement": "After any installation of weights and any number of earlier selections, a weighted round robin selection returns an endpoint of the list that was seen available during the call, or nil; with the round robin and ring selectors nil is returned only if every endpoint was seen unavailable. (The latter is false of the window selector, which never re-checks one position; see the refuted theorem.)", "quantifier": "every weight vector, every history of selections, every pattern of availability changing during calls, every random draw", "why_tests_cant": "availability can change between any two questions; the exception needs a specific history of current weights and a specific draw", "anchors": ["lb/weightRoundRobinLb.go:WeightRoundRobinLB.Select", "lb/weightRoundRobinLb.go:roundRobinSelector.DoSelect", "lb/weightRoundRobinLb.go:weightedRingSelector.DoSelect", "lb/weightRoundRobinLb.go:slidingWindowWeightedRoundRobinSelector.DoSelect"]}
{"id": "C56", "title": "Endpoint weights stay between 1 and 500", "statement": "After any sequence of endpoint refreshes and dynamic metadata reads, the weight used for every endpoint is between 1 and 500; an endpoint without dynamic weight uses its static metadata weight clamped to that range, 10 when there is none.", "quantifier": "every refresh history and every metadata string", "why_tests_cant": "metadata is arbitrary remote text and holders are carried across refreshes", "anchors": ["lb/weightedEpRefresher.go:RefreshWeightedHolders", "lb/weightedEpRefresher.go:adjustWeight", "lb/weightedEpRefresher.go:getWeight"]}
{"id": "C57", "title": "Direct routing by environment variable picks only matching entries", "statement": "The direct registry found in MESH_DIRECT_RPC for a service is one of the entries whose key matches the service (prefix match for keys ending in *, suffix match otherwise), none is found exactly when no entry matches, and with a unique match the answer does not depend on map order.", "quantifier": "every environment string, service path and map iteration order", "why_tests_cant": "Go randomises map iteration and the environment string is arbitrary text", "anchors": ["core/util.go: GetDirectEnvRegistry"]}
{"id": "C58", "title": "Export settings name the protocol and port they spell", "statement": "ParseExportInfo of proto:port yields that protocol and port, of a bare port yields motan2 and that port, and it never returns an empty protocol.", "quantifier": "every export string, protocol and port", "why_tests_cant": "the string is free text from configuration files", "anchors": ["core/util.go: ParseExportInfo"]}
{"id": "C60", "title": "A circuit breaker answers with the service's response or an error for the same request", "statement": "The response of a call guarded by a circuit breaker filter carries the id of the request; it is the response from below exactly when the call was let through, finished in time and carried no counted exception, and otherwise a code 400 error; the call below is made at most once and not at all when refused. The breaker is always configured with positive numbers and an error percentage of at most 100. Each setting of the breaker is the positive number of its own parameter (at most 100 for the percentage) and otherwise its default. (Refuted: a number too large for an int is taken as the largest int.)", "quantifier": "every outcome of the breaker, every response and every URL", "why_tests_cant": "all URLs and outcome combinations", "anchors": ["filter/circuitBreaker.go: Filter, checkException, getConfigValue", "filter/clusterCircuitBreaker.go: Filter"]}
{"id": "C62", "title": "A call on a channel ends once its deadline has passed, and not before", "statement": "A call waiting on a channel stops waiting as soon as its deadline has passed, an answer has arrived or the channel has been closed: one of its next steps is always possible and ends it. A call only reports a timeout when its own deadline has passed, provided the stream it uses was not recycled with an unread tick of an earlier timer.", "quantifier": "every channel, every interleaving of calls, answers, timers, closings and stream reuse", "why_tests_cant": "Depends on every interleaving of timers, receive loop and pooled streams; a test sees a handful of schedules.", "anchors": ["endpoint/motanCommonEndpoint.go: Stream.Send", "endpoint/motanCommonEndpoint.go: Stream.Recv", "endpoint/motanCommonEndpoint.go: acquireStream", "endpoint/motanCommonEndpoint.go: releaseStream"]}
{"id": "C63", "title": "An endpoint call always answers, fits the group and counts only the service's failures", "statement": "Whatever happens while calling through an endpoint (no pool, no channel, send or receive failure, unreadable value), the caller gets a response: the peer's answer unchanged, or a framework exception with the id of its own request. The request carries the endpoint's group if it has one, and no other attachment is changed. The endpoint's error counter goes up exactly when the answer is not the service's own (framework exception or no answer), and is reset otherwise. When one call is attempted through several endpoints, an endpoint with a group sends its own whichever were tried before. (An endpoint without a group sends the group left by the endpoint tried before it, not the caller's: refuted, a finding.)", "quantifier": "every request, every outcome of pool, channel and deserialisation", "why_tests_cant": "all combinations of failures, attachments and groups", "anchors": ["endpoint/motanCommonEndpoint.go: Call", "endpoint/motanCommonEndpoint.go: fitGroup", "endpoint/endpoint.go: GetRequestGroup"]}
{"id": "C59", "title": "Switcher commands are undone when they go away", "statement": "Right after a switcher command every registered switcher has the value the command asks for, or the value it was registered with if the command does not mention it; a withdrawn command leaves no trace, whatever commands came before.", "quantifier": "every history of registrations and commands of one cluster, every map order", "why_tests_cant": "histories of commands and map iteration orders are unbounded", "anchors": ["cluster/command.go: processSwitcherCommand", "core/switcher.go"]}
{"id": "C64", "title": "Attachments become http headers under predictable names", "statement": "When a motan request is turned into an http request, every attachment makes at most one header call carrying its own value; motan meta keys are renamed, private keys are not sent, the http_ prefix is removed, everything else keeps its name; two attachments collide only if one is the prefixed form of the other or one is named like a renamed meta key.", "quantifier": "every attachment set, argument list and default method", "why_tests_cant": "all key combinations", "anchors": ["http/httpProxy.go: MotanRequestToFasthttpRequest, InnerAttachmentsConvertMap"]}
{"id": "C65", "title": "A map argument survives as a form", "statement": "The form body built from a map argument reads back, by the form decoding rules, as exactly that map.", "quantifier": "every map with names that need no escaping and arbitrary values", "why_tests_cant": "arbitrary bytes in values", "anchors": ["http/httpProxy.go: MotanRequestToFasthttpRequest"]}
{"id": "C66", "title": "Typed configuration getters", "statement": "A getter returns the value of the key when it has the asked type and a definite 'absent' (or the caller's default) when it is missing; the words read as true or false are exactly the documented ones.", "quantifier": "every configuration, key, value and default", "why_tests_cant": "the words and value kinds are unbounded; a test can only sample spellings", "anchors": ["config/config.go: ParseBool, Bool, Int, Int64, DIY, String, GetSection"]}
{"id": "C67", "title": "Placeholders are replaced by the pool's dynamic parameters", "statement": "After a pool is loaded, a value that is exactly ${name} has become the value of dynamic parameter name for that pool (exact pool entry first, then a matching pattern, then the default), and every other value is as it was.", "quantifier": "every configuration, nesting depth, pool name and dynamic-parameter section", "why_tests_cant": "nesting and parameter tables are unbounded and Go map order is arbitrary", "anchors": ["config/config.go: ReplacePlaceHolder", "core/globalContext.go: getDynamicParameters, parsePoolConfiguration"]}
{"id": "C68", "title": "A configuration section and its URL say the same", "statement": "The URL built from a section has the section's protocol, host, port, path and group and one parameter per remaining key, printed; a referenced basic section fills exactly what the section leaves out; the only sections refused are those with an entry of the wrong type.", "quantifier": "every section, basic section and order of keys", "why_tests_cant": "sections are arbitrary maps visited in arbitrary order", "anchors": ["core/globalContext.go: confToURL, confToURLs, basicConfToURLs", "core/util.go: InterfaceToString"]}
{"id": "C69", "title": "The filters of a service are the union of what was asked for", "statement": "The filter parameter of a derived URL names exactly: the agent's default and global filters not disabled by the URL, the filters of the environment, the filters added by the program and the URL's own; the other parameters are unchanged.", "quantifier": "every agent URL, environment, list of added filters, URL and iteration order of the sets", "why_tests_cant": "five sources of arbitrary lists and an arbitrary map order", "anchors": ["core/globalContext.go: GetFilterSet, MergeFilterSet, GetEnvGlobalFilterSet, AddRelevantFilter, basicConfToURLs"]}
{"id": "C70", "title": "Groups are told apart and suffixed", "statement": "A service with several groups (its own and those of the environment) becomes one service per different group, equal but for the group, each with the registry suffix added once, and nothing else appears; a reference also gets one copy in the suffixed sub group unless one exists; identities name the final group.", "quantifier": "every set of services and references, group list, environment and suffix", "why_tests_cant": "number of services and groups is unbounded and generated names can collide", "anchors": ["core/globalContext.go: parseMultipleServiceGroup, parseRegGroupSuffix, parseSubGroupSuffix, parseRefers, parseServices"]}
{"id": "C61", "title": "What the metrics filters count adds up", "statement": "For every answered call that passes a metrics filter (server, client or cluster side) the filter records one total, one elapsed-time observation and exactly one latency bucket, a slow count if and only if the call was slow, and a business or other exception count according to the response; over any sequence of calls the counters add up to the numbers of such calls, and no key is used with two kinds of metric.", "quantifier": "all requests, responses, elapsed times, roles and sequences of calls", "why_tests_cant": "adding-up holds for every sequence of calls and every elapsed time; a test records a handful of calls and cannot exclude a bucket gap or a key collision", "anchors": ["filter/metrics.go:MetricsFilter.Filter", "filter/clusterMetrics.go:ClusterMetricsFilter.Filter", "metrics/metrics.go:AddCounter", "metrics/metrics.go:AddHistograms", "metrics/metrics.go:Escape", "metrics/metrics.go:ElapseTimeSuffix"]}
{"id": "C71", "title": "Reloading the configuration replaces exactly what changed", "statement": "No cluster that serves requests has been destroyed, whatever subscriptions and reloads happened. A reload that is not disturbed serves exactly the new references in their order, keeps the cluster of every reference that was served before, and destroys exactly the clusters that are not referred to any more.", "quantifier": "all histories of starts, subscriptions and reloads, with every overlap (for the reload itself: every history before it)", "why_tests_cant": "holds for every set of old and new references and every interleaving; a test reloads one configuration", "anchors": ["agent.go: initCluster, reloadClusters, findCluster"]}
{"id": "C72", "title": "The agent fills in only what a request lacks", "statement": "What a request says about its group and application is never overwritten, no other attachment is touched, and where the request says nothing the values of the reference are filled in, for either protocol version.", "quantifier": "all requests, references and both protocol versions", "why_tests_cant": "all combinations of present and missing attachments", "anchors": ["agent.go: agentMessageHandler.Call, fillDefaultReqInfo"]}
{"id": "C73", "title": "Run-time registrations survive a crash", "statement": "After a crash at any moment at which the snapshot is not just being written, and a start in recover mode, every registration and subscription made at run time is exactly as before, unless a request that was not yet answered had changed it.", "quantifier": "all histories of register, unregister and subscribe requests, overlapping in any way, and all crash points", "why_tests_cant": "all interleavings and crash points; a test crashes at one point of one history", "anchors": ["dynamicConfig.go: DynamicConfigurer.Register, Unregister, Subscribe, saveSnapshot, doRecover", "agent.go: ExportService, UnexportService, SubscribeService"]}
{"id": "C74", "title": "Discovery answers exactly the services that are there", "statement": "Discovery in ZooKeeper answers, in the order of the nodes, one URL for each node, equal to the URL the server registered (also when a Java server wrote it as a serialized string). Discovery in a direct registry answers one URL for each well-formed host:port or unix socket of its address list, in order, and nothing for the others: the subscriber's URL with that address and the registry's group if it has one. (One ZooKeeper node with unparsable data makes discovery panic: refuted.)", "quantifier": "every list of nodes and node data, every address list", "why_tests_cant": "unbounded lists and arbitrary node data", "anchors": ["registry/zkRegistry.go: Discover, nodeChildsToURLs, getNodeInfo", "registry/directRegistry.go: Discover, parseURLs"]}
{"id": "C75", "title": "Recycled messages are not mixed up between calls", "statement": "In a proxying motan2 server whose messages come from and go back to a shared pool, every frame written to a backend is exactly the frame of the client request it belongs to (under the channel's own id and the backend's group), and every frame written to a client is exactly the frame of the answer to that client's request, with its request id, as if every message had been freshly allocated - whatever the interleaving of calls, writes, time-outs, closed channels, failed decodes and returns to the pool, as long as no request is sent a second time. (With a failover retry this is false: the attempt left in the first channel's queue can be written after the message was given to another client's request, which then goes to that backend.)", "quantifier": "all numbers of channels, clients and calls, all message contents, all choices of the pool, all interleavings of the goroutines", "why_tests_cant": "a mix-up needs a particular interleaving of a writer goroutine, the answer and the pool's reuse; tests see a few schedules only", "anchors": ["protocol/motanProtocol.go: AcquireMessage, ReleaseMessage, Reset, DecodeWithTime, SetCanRelease, BuildExceptionResponse", "server/motanserver.go: processV2", "endpoint/motanEndpoint.go: Channel.Call, Stream.Send, sendLoop", "ha/failoverHA.go: Call"]}
{"id": "C76", "title": "The http proxy serves, forwards or refuses a request by its domain and path", "statement": "A request whose host names a configured domain (with or without a port, also a bracketed IPv6 address) that has a service for the path becomes one rpc call of that service. A request that nobody serves is sent on to its host, or refused if that is one of the proxy's own addresses; a request for an unknown domain is treated as one for the default domain if there is one. Whatever the host header, nothing is sent on to an address listed as the proxy's own. Every request is answered: with headers and body of the reply, with the text of the exception, or by plain http when the service has no endpoints. A call by form carries the form's service, method, argument and group and all headers. An agent's http call makes one rpc call if the domain has a service for the path, and one http call, to the domain, only if it has none or the service has no endpoints; a mesh client calls by http only for paths and only when the agent cannot be reached. (Refuted: the own address in another spelling is sent on to the proxy itself; a header M_g replaces the form's group; the mesh client's http fallback loses the body, and panics when the reply is bytes or a string.) The value of a call by form is written as the body; an exception's message, or why the value cannot be read, is the text of a 502.", "quantifier": "all hosts, paths, headers, forms, configurations and results of the calls", "why_tests_cant": "host and path strings are unbounded and all combinations of configuration and callee's result matter", "anchors": ["server/httpProxyServer.go: Open, doRPC, doHTTPProxy, doHTTPRpcProxy", "agent.go: httpCall", "meshClient.go: BaseCall", "http/httpProxy.go: FasthttpResponseToMotanResponse"]}
{"id": "C77", "title": "An http domain has one cluster for each service, and destroying it destroys them all", "statement": "A call through an http domain always gets a cluster of the service it asked for. As long as the domain is not destroyed, all calls for a service, however many come in at once, share one cluster and no second one is made for the service. No cluster is destroyed twice. Destroying the domain while no call is in the middle of getting its cluster destroys every cluster, also when calls come in meanwhile. (Refuted: a call that is in the middle of getting its cluster when the domain is destroyed makes a cluster that no later destroy reaches.)", "quantifier": "all numbers of concurrent calls, all services, all interleavings with Destroy", "why_tests_cant": "needs all interleavings of the double-checked locking with the destroying loop", "anchors": ["cluster/httpCluster.go: getMotanCluster, clusterHolder.getCluster, clusterHolder.destroy, Destroy"]}
{"id": "C78", "title": "The cached services and groups of a registry are what it last answered", "statement": "Whether a service is in a group is answered by the newest list the registry gave for that group (while a new list is being stored, possibly the one before); failed queries change nothing, and without any list nothing is in the group - as long as no two groups share a cache key, for which it is enough that groups have no underscore. However many asks there are, a registry's lists for a group are at least an hour apart. An old list that is asked for is queued for refreshing unless a hundred refreshes wait already, and is replaced when its turn comes. The groups of a registry are answered by the newest list, at most an hour old unless the registry has just refused to answer. (Refuted: two groups of two registries can share a cache key, and one is then answered with the services of the other; the first ask after any time gets the old list; asks for one group whose registry does not answer fill the queue so that no other group is refreshed; asks for groups that come together all query the registry.)", "quantifier": "all histories of asks, refreshes, registry answers and failures, all times", "why_tests_cant": "needs every interleaving of asks with the refresh worker and arbitrary times", "anchors": ["core/motan.go: ServiceInGroup, GetAllGroups, registryGroupServiceCacheInfo, registryGroupCacheInfo, refreshTaskPool"]}
{"id": "C79", "title": "Meta values: environment, dynamic values and the cache of other servers' values", "statement": "The meta values of the environment are exactly the variables whose name has the configured prefix. A dynamic value is what was last put and not removed since; merged values are the dynamic value if there is one, else the environment's. A value is looked up under the configured prefix first and under META_ otherwise. A server's static values are the parameters of its URL with one of the prefixes. The dynamic values obtained for a server were answered by its address, and if no call was made for them they were stored at most the configured number of seconds ago; errors are not cached. Only servers speaking motan2 with dynamic meta on and without a protobuf serialization are asked, and an address found not to have the service is left alone for thirty seconds. (Refuted: an environment value is cut off at an equals sign; since only the address counts, an endpoint with dynamic meta off makes another endpoint at the same address unsupported, or is given the values cached for it.)", "quantifier": "all environments, all histories of puts and removals, all interleavings of asks, all times", "why_tests_cant": "unbounded histories and interleavings of asks around expiry times", "anchors": ["meta/meta.go: Initialize, PutDynamicMeta, RemoveDynamicMeta, GetMergedMeta, GetMetaValue, GetEpDynamicMeta, GetEpStaticMeta, isSupport"]}
{"id": "C80", "title": "Protobuf serialization: arguments arrive as sent", "statement": "With the protobuf serialization any list of nils, booleans, 16/32/64-bit integers, bytes, floats, strings, pointers to these and messages is written in a fixed format (1 for nil, 0 and the value otherwise), and a receiver that asks for the matching types, by type or by a pointer to a variable, gets exactly these values, whatever follows them. Bytes cut off anywhere are an error, never other values. Several arguments are written iff each can be written alone. Whatever bytes arrive, the value returned is nil or of the type asked for. grpc-pb takes exactly one message and gives it back whatever the message passed for it held before. (Refuted: int and uint variables are not set and come back as int64/uint64; slices of messages come back as one object repeated; arguments behind a slice are swallowed; a slice of message pointers cannot be sent and panics on a nil element; reading into a message with contents merges; a number variable is zeroed on an error.)", "quantifier": "all lists of values, all fitting targets, all byte strings, all cut positions, all message codecs that satisfy the library contract", "why_tests_cant": "unboundedly many values and argument lists, every cut position of every encoding", "anchors": ["serialize/pb.go: PbSerialization.Serialize, SerializeMulti, DeSerialize, DeSerializeMulti, serializeBuf, deSerializeBuf; GrpcPbSerialization"]}
{"id": "C81", "title": "A client call computes the method's result, through the whole stack", "statement": "Calling a method of a Go service through the client library, the wire and the server with the simple serialization gives the caller the first result the method computes for its arguments (int arriving as int64, a string for a []byte parameter as []byte), and stores it in the reply variable when it has the reply's type; an unknown service or method, missing arguments, wrong types, a panic of the method and values the serialization cannot carry give exactly the documented error, and the caller always gets a value or an error. (False as stated for: surplus arguments, which are silently dropped; int parameters, which can never be called; nil arguments and nil results, which are errors.)", "quantifier": "for every service, method, argument list, reply type, url, stream number, gzip threshold and peer address", "why_tests_cant": "the claim composes argument encoding, request conversion, framing, dispatch, reflection, response conversion and decoding over all values and all method signatures", "anchors": ["client.go:Call", "client.go:BuildRequest", "client.go:BaseCall", "endpoint/motanEndpoint.go:Call", "server/motanserver.go:processV2", "server/server.go:DefaultMessageHandler.Call", "provider/provider.go:DefaultProvider.Call", "core/motan.go:ProcessDeserializable", "core/util.go:FirstUpper"]}
{"id": "C82", "title": "Mesh registry: what is listed, what the agent is told, what discovery answers", "statement": "After any registrations, unregistrations and subscriptions that returned, the mesh registry lists a service exactly when a registration for its identity was answered 200 and no later unregistration was, once, under the url of the call that was answered. A registration of a service not listed is sent, always the same url with the agent's registry added, until an answer can be read; a listed one is not sent again; an unregistration is sent once and only for a listed service. If the agent says 200 only about what it did and no answer to an unregistration is lost, every listed service is registered at the agent (false when an answer is lost: the service stays listed and is never sent again; changed parameters are never sent either). Discovery answers one url, the given one at the agent's host and mesh port (zero for good if the agent could not be asked at the start). While a registration goes unanswered no other can proceed.", "quantifier": "every sequence of registrations, unregistrations and subscriptions; every sequence of network answers to each; every url; every outcome of the three initial queries", "why_tests_cant": "the list depends on the whole history of calls and on which answers were lost; a test plays a handful", "anchors": ["registry/meshRegistry.go: MeshRegistry.Initialize, Register, UnRegister, Subscribe, Discover, GetRegisteredServices, initRegistryRequest, readMeshRegistryResponse"]}
{"id": "C83", "title": "Requests from the pool and clones are independent", "statement": "Whoever releases only requests they hold and uses none after releasing it gets, on acquiring a request, one that nobody else has and that shows nothing of an earlier call. A clone shows what its original shows, but for body size, asynchrony, the motan1 flag and the remote address. Setting attachments, arguments, ids, names or context of a request, releasing it or cloning it is not seen by the holder of any other request; appending arguments or finish handlers can be seen only by requests descending from the same one by cloning. (That clones keep their arguments and handlers is false: after the original went through the pool the next call's arguments appear in the clone; attachments set on a clone of a proxied request are not sent; a clone forgets that it is a motan1 request.)", "quantifier": "every sequence of acquisitions (new or any pooled object), assignments, appends with any growth of arrays, clones and releases", "why_tests_cant": "aliasing shows only for particular orders of cloning, releasing and reuse, and depends on spare capacity of arrays and on what the pool hands out", "anchors": ["core/motan.go: AcquireMotanRequest, ReleaseMotanRequest, MotanRequest.Reset, MotanRequest.Clone, SetAttachment, SetArguments, RPCContext.Reset, AddFinishHandler", "protocol/motanProtocol.go: ConvertToRequest, ConvertToReqMessage, Message.Clone", "ha/backupRequestHA.go: Call"]}
{"id": "C84", "title": "Extension factory: the last constructor registered under a name, one registry per identity", "statement": "Whatever was registered and asked for before, high availability, load balance, endpoint, server, filter, message handler, provider and serialization are made by the constructor registered last under the name the url or the caller gives (with the defaults failover, random, motan2, default; a proxied service without provider uses the protocol of the proxied address; serializations are found by name or by number). Asking for a registry gives one registry per identity: the one made by the first request that found a constructor, never replaced, never shared with another identity. (Parameters are not part of the identity, so later ones are ignored; names with surrounding blanks are never found; a serialization whose name is another's number takes its place.)", "quantifier": "every sequence of registrations and requests, every url and name", "why_tests_cant": "what is returned depends on the whole order of registrations and requests", "anchors": ["core/motan.go: DefaultExtensionFactory GetHa, GetLB, GetFilter, GetRegistry, GetEndPoint, GetProvider, GetServer, GetMessageHandler, GetSerialization, RegistExt*, RegistryExt*"]}
{"id": "C85", "title": "Asynchronous calls deliver each result once", "statement": "For any number of asynchronous calls, in any order of answers, sends and receives: the result of a call is sent at most once, to the channel its Done field names; a channel yields the results of its calls in the order they were sent; a result taken from a channel has its error set to the exception's message of the response, or none; an answered call is sent as soon as the channel has room, and a channel with room for all its calls never makes one wait. (Nothing ever arrives on an unbuffered channel passed by the caller: it is silently replaced.)", "quantifier": "every interleaving of calls, answers, sends and receives; every set of channels and capacities", "why_tests_cant": "interleavings of goroutines and channel capacities", "anchors": ["client.go: Client.Go, Client.BaseGo", "core/motan.go: AsyncResult"]}
{"id": "C86", "title": "A call answered through http reaches the configured address with its arguments, and its answer is what came back", "statement": "A provider of protocol http or httpx turns each call into at most one http request. Without a proxy the address and the http method are the ones configured for the called method (else the default entry, else the service's own; a method named by the call wins), the format's one %s replaced by the method's name; two %s are refused and nothing is sent. A GET carries the request id and all arguments, plus the configured variables taken from the attachments, in its URL; a POST carries them in its body; a receiver that decodes the form finds exactly them. The attachments go out as headers (M_ in front becomes MOTAN-) and the client's address is added unless the call names one. With a proxy the request goes to the path the configured locations give. A request that could not be made is answered with an exception 503; a status of 400 or more is an exception with that code only if the service enables it; otherwise the body is the value and headers and status are attachments. (Findings: a call without arguments panics; with methods other than GET and POST the arguments are dropped; a string argument arrives as one name; an address with a query of its own swallows the request id; M_ inside names is replaced too; httpx does not name the call in its first exception.)", "quantifier": "all configurations, calls, argument maps, iteration orders of maps, and all behaviours of the http server", "why_tests_cant": "the escaping, naming and precedence rules must hold for every argument name and value and every configuration; map iteration order is random", "anchors": ["provider/httpProvider.go:HTTPProvider.Call", "provider/httpProvider.go:buildReqURL", "provider/httpProvider.go:buildQueryStr", "provider/httpProvider.go:HTTPProvider.DoProxy", "provider/httpProvider.go:HTTPProvider.DoTransparentProxy", "provider/httpProvider.go:HTTPProvider.DoFormatURLQuery", "provider/httpxProvider.go:HTTPXProvider.Call"]}
{"id": "C87", "title": "Reverse proxy and local providers: where a call goes", "statement": "A service exported with a proxy parameter 'protocol:port' (or a port, then motan2) is called at that protocol and port of proxy.host (127.0.0.1 by default) under its own path, group and parameters, and its endpoint's identity is that address's; a port that is no positive number or an unknown protocol leaves it unavailable, and every call is refused and nothing sent. An available one forwards each request with its attachments, adding the caller's address as x-forwarded-for only if the request names none. A local reference calls the provider that was last registered for its path when the reference was made, whatever happens later; if there was none, every call gets an exception under its own id. (Findings: the refusals of the reverse proxy and of the meta service carry request id 0, so a motan1 caller is never answered; without a proxy parameter calls go to 127.0.0.1:9982; a misconfigured provider panics when destroyed; two local references share one provider that keeps the later url.)", "quantifier": "every url, parameter value, attachment map and availability; every order of local registrations and references", "why_tests_cant": "all configurations and all orders of registration and reference", "anchors": ["provider/motanProvider.go: Initialize, Call, IsAvailable, Destroy", "provider/metaProvider.go: Call", "endpoint/localEndpoint.go: Initialize, Call", "registry/localRegistry.go: Discover", "core/motan.go: RegistLocalProvider, GetLocalProvider"]}
{"id": "C88", "title": "Log rotation: what was logged stays in the log or its backups", "statement": "Whatever is written, rotated, closed, cleaned and restarted, with system calls failing anywhere (except the stat before a log is moved aside), the first content of the log followed by all bytes reported as written equals the files moved aside, in order, followed by the log. If no two rotations fall into the same wall-clock hour and nothing else uses a backup's name, every file moved aside and every other file stays readable, plain or compressed, unless the cleaning deletes it, and nothing is deleted when neither MaxBackups nor MaxAge is set. The log and its backups never exceed MaxSize; a record is never split over two files; a record longer than MaxSize is refused and changes nothing. The cleaning touches nothing but names of the form base-hour.ext[.gz], deletes exactly the backups older than the newest MaxBackups hours or than MaxAge days (up to 106751), and compresses the others if asked. (Findings: two rotations in one hour destroy the first backup; with hourly rotation a rotation for size destroys the backup of the hour before; a failing stat empties the log; an age of 200000 days overflows and deletes every backup; west of Greenwich backups are deleted up to half a day early.)", "quantifier": "every configuration, directory, sequence of operations with their times, every failing system call and every interleaving of the cleaning with the writes", "why_tests_cant": "all histories, clocks and faults", "anchors": ["log/rotate.go: Write, rotate, Rotate, Close, openNew, openExistingOrNew, backupName, mill, millRunOnce, oldLogFiles, timeFromName, compressLogFile, max, prefixAndExt"]}
{"id": "C89", "title": "Access logs: one record for each call, with its own data", "statement": "A call through an endpoint or a cluster is recorded once when answered, a served call once after its response was sent, with the time between receiving and sending. Whatever goroutines log, however the consumer is scheduled and although records are pooled, every record that is not discarded is written exactly once with its own call's data, or still waits; with asynchronous logging switched on once, records are written in the order logged, the consumer alone empties the queue, a record is discarded only when the buffer is full, and the reported discard counts add up. A line has fifteen columns from which the record can be read, if no text contains a bar. A level's name sets that level. (Findings: a method name with a line feed forges a complete record of the caller's choice; a bar shifts the columns; a motan1 answer that cannot be encoded is not recorded, and a motan2 answer that cannot be converted is recorded as success; switching asynchronous logging on a second time loses waiting records for ever, uncounted.)", "quantifier": "every set of calls, every interleaving of loggers, consumers, mode changes, samples and pool evictions, every text", "why_tests_cant": "all schedules of goroutines sharing pooled records", "anchors": ["filter/accessLog.go: Filter, doAccessLog", "filter/clusterAccessLog.go: Filter", "log/log.go: AccessLog, doAccessLog, SetAsync, SetAccessLogAvailable, AcquireAccessLogEntity, ReleaseAccessLogEntity", "log/level.go: String, Set", "log/bytes.go", "server/motanserver.go: processV1, processV2"]}
{"id": "C90", "title": "The nginx configuration reader reads exactly its grammar", "statement": "A configuration made of words (bare, or in double quotes with the escapes for quotes, backslash, tab and line ends), comments, directives ended by a semicolon and blocks of any depth is read as exactly the directives it is written for; the reading is unique; any directives with any bytes in their words can be written and are read back; directives are returned for no other text, except that a tail in which no directive is complete is dropped at the outer level; no text makes the reader index out of range or run forever. (That an unfinished last directive is reported is refuted; so is quoting with single quotes and a variable in braces at the start of a word.)", "quantifier": "every byte string as configuration, every nesting depth, every list of words", "why_tests_cant": "The reader is a byte-driven machine with eight flags; tests feed it a few files, the claim is about every interleaving of quotes, escapes, comments, dollars and braces.", "anchors": ["tools/nginx/parser.go:readToken", "tools/nginx/parser.go:parseFromStat"]}
{"id": "C91", "title": "Converted locations are those of the nginx configuration", "statement": "A configuration whose locations are written in the supported ways is converted to the list of its locations in order, at whatever depth they stand, each with its kind of match, its match, the last upstream it names and one rule per rewrite in order; the rules are accepted by the http proxy exactly when their regular expressions compile, and rewrite a path as the directive says: the replacement where the pattern matches and, under a condition, only if the condition (negated or not, ignoring case or not) holds. Locations without an upstream are left out. (Refuted: patterns with blanks, https upstreams, the ^~ modifier, and flags of rewrites are not carried over.)", "quantifier": "every configuration of the grammar, every nesting of blocks, every list of items in a location, every regular expression compiler", "why_tests_cant": "The converter's output is text that another component parses; only a few configurations can be tried, and the two parsers must agree on all.", "anchors": ["tools/nginx/parser.go:visitDirectives", "tools/nginx/parser.go:visitLocation", "http/httpProxy.go:newRewriteRule"]}
{"id": "C92", "title": "Mesh traces are bounded, dumped once and add up", "statement": "However requests and the trace handler interleave, at most MaxTraceSize+1 traces are held and returned by one dump; as long as dumps do not overlap, no trace is returned twice and only created ones are; when calls do not overlap, the dumps and what is held are exactly the created traces in order and a trace is refused exactly above the limit. The printed durations are the times since the span each span follows, and request, remote and response time make up the total. A custom trace traces exactly the requests with its host prefix, group and service, and of these the share asked for. The trace requests of the management port that follow or contain each other leave the trace policy as it was. (Refuted: the limit itself, overlapping dumps, overlapping trace requests.)", "quantifier": "every interleaving of trace creations and dumps, every limit, every list of spans with times after 1970, every sequence of trace requests", "why_tests_cant": "The holder is read outside its lock and swapped without one; which interleavings lose or duplicate traces cannot be found by running some.", "anchors": ["core/debug.go:newTrace", "core/debug.go:NewTraceContext", "core/debug.go:GetTraceContexts", "manageHandler.go:MeshTrace", "manageHandler.go:formatTc", "manageHandler.go:processReqSpan", "manageHandler.go:processResSpan", "manageHandler.go:CustomTrace.Trace"]}
{"id": "C93", "title": "Asynchronous log filters: no blocking, no duplicates, no interference", "statement": "A log call never blocks on the asynchronous filters: it queues an item exactly when at least one filter is registered and the queue has room, and otherwise changes nothing a filter can see. The queue never exceeds its capacity and gives items back in the order they were accepted. From the moment a filter is registered, every item the consumer takes is either put in that filter's channel or missed by it, never both and never twice, in order; it is missed only if the filter's channel is closed, panicking or full at that moment; a filter whose channel can take the item gets it whatever state the other filters are in, and a bad filter never stops the consumer. A filter's reader receives exactly what was put in its channel, in order. (Refuted: that the queue drains once the application stops logging. The message about a missed item is itself a log call and is queued for the filters, so one dead filter keeps the queue busy for ever, at the limiter's pace.)", "quantifier": "All interleavings of log calls, consumer steps, filter registrations (including replacement under the same name and one filter under several names), channel reads, all channel capacities, all map iteration orders and all decisions of the limiter.", "why_tests_cant": "Loss and duplication depend on the interleaving of loggers, the consumer, registration and readers and on when channels fill; a test sees a few schedules.", "anchors": ["log/filter.go: AddAsyncFilter, startAsyncFilterConsumer, callAsyncFilter, doAsyncFilters", "log/log.go: Infoln, Errorf, AccessLog"]}
{"id": "C94", "title": "The cgi provider passes a call to a FastCGI script and its answer back", "statement": "A call whose argument is a string map reaches the FastCGI server at the configured host and port (127.0.0.1:9000 by default) with an environment in which every variable is determined: SERVER_SOFTWARE is fixed; REQUEST_METHOD, SCRIPT_FILENAME and DOCUMENT_ROOT come only from the service's configuration; each attachment k arrives as MOTAN_k and cannot reach any other variable; with method GET the arguments (and the request id) are in QUERY_STRING, with POST they are the body, with CONTENT_TYPE and a CONTENT_LENGTH equal to the body's length; nothing else is set. The script's form parser reads back exactly the request id and the arguments. An answer made of an optional status line, header lines, an empty line and any body is read back: the value is the body byte for byte, every header is an attachment, and the response has the request's id. An answer without an empty line gives exception 502. (Refuted: the script's status is lost, so an error page is an ordinary answer; a status line without a space panics; of repeated headers only the last is kept; with any other method, or none, the arguments are dropped; failed calls are answered with request id 0.)", "quantifier": "All service configurations, attachments, arguments with plain names, map iteration orders, all answers of the script (any bytes).", "why_tests_cant": "Ranges over all attachments (including names chosen to collide with CGI variables), arguments, header sets and bodies containing the separators.", "anchors": ["provider/cgiProvider.go: Call, ParseFastCgiResponse", "provider/httpProvider.go: buildQueryStr, fillException"]}
{"id": "C95", "title": "Tracing filter: one span per call, correctly parented, and transparent", "statement": "For every call through the tracing filter, on the client or the server side, exactly one span is started, as a child of the context carried by the request (or as a root when there is none); the span's context replaces the carried one in the attachments given to the rest of the chain, which is called exactly once; the outcome (response or panic) is given to the recorder, and the span is finished exactly once, last, whatever happens. If the recorder does not panic the caller gets the very response or panic of the rest of the chain. Over any number of nested hops the spans form one chain of parents and finish in reverse order. (Refuted: with the default recorder a panic of the service is replaced by a nil dereference and a nil response becomes a panic; a retry of the same request starts its span as a child of the failed attempt, because the injected context stays in the request's attachments.)", "quantifier": "All tracers that read back what they wrote, all recorders, all behaviours of the rest of the chain including panics and nil responses, all attachments, chains of any length.", "why_tests_cant": "Deferred calls, panics in the service or in the recorder and chains of hops combine without bound; a test checks a few outcomes.", "anchors": ["filter/tracing.go: Filter, filterForClient, filterForProvider, handleIfPanic, DefaultTraceRecordingFunc", "ha/failoverHA.go: Call"]}
{"id": "C96", "title": "Management port: routing, protection and the settings it changes", "statement": "Every request to the management port goes to the handler registered for its exact path or else for the longest registered subtree, with user handlers overriding the default ones; a request that is not permitted changes nothing and reaches no handler. After any history of requests the reported status code is the last one set through /200 and /503 (and every registered service is told it), the debug switch, every registered switcher, every log setting and every meta entry have exactly the value of the last accepted setting, and a handler changes only its own settings. The registry status names the worst of the checked services independently of map order, runtime info answers exactly the asked keys, and refers filters are replaced as a whole. (Refuted: the overall status can be register-success although a checked service is in another failed state; invalid filter rules are applied anyway after a failure is answered; of several log settings in one request only the first is applied; client calls are counted in /status.)", "quantifier": "All handler tables, all permission decisions, all request histories of any length, all sets of registries, services, switchers, meta entries and counters.", "why_tests_cant": "Settings depend on the whole history of requests and on map order; tests issue single requests.", "anchors": ["agent.go: startMServer, mhandle, initManageHandlers", "default.go: GetDefaultManageHandlers", "manageHandler.go: StatusHandler, DebugHandler, SwitcherHandler, LogHandler, MetaInfo, RuntimeHandler, RefersFilterHandler"]}
{"id": "C97", "title": "Failback: every failed registration is retried, and nothing else", "statement": "At every tick of the failback loop the operations issued are exactly these: registering again each service whose registration failed while the server is available, and unregistering again each service whose deregistration failed while it is unavailable, at the registry where it failed and once each; services in any other state, and registries that keep no state, get nothing.", "quantifier": "All sets of registries and services, all registration states and server states, any map order.", "why_tests_cant": "The set of services, registries and states is unbounded; tests use one registry and one service.", "anchors": ["agent.go: startRegistryFailback", "server.go: startRegistryFailback"]}
{"id": "C98", "title": "Registry snapshots: a file holds the latest nodes of its service from all registries", "statement": "After any history of saves and one flush, the snapshot file of a service key holds exactly the addresses last saved under that key by each registry, together with the group and path of one of those saves, in any map order; files of keys never saved keep their contents; saves attempted during a flush do not affect what it writes, and a file that cannot be written does not stop the others. (Refuted: different services can have the same key, because the key joins group and path with an underscore, and then overwrite each other.)", "quantifier": "All histories of saves by any number of registries, all map orders, all interleavings of saves with a flush, all previous file contents.", "why_tests_cant": "Saves, flushes and map orders interleave without bound; tests write one snapshot.", "anchors": ["registry/registry.go: flushSnapshot, SaveSnapshot, GetNodeKey", "registry/zkRegistry.go: saveSnapshot"]}
{"id": "C99", "title": "Finding the group to subscribe to, and the registries", "statement": "For every group pattern, idc, registry and measurement: a group without ${idc} is used as written; otherwise the group with the process's idc as given, in lower case or in upper case is used, the first of these for which the registry has nodes; otherwise, among the groups the registry lists that match the pattern, one with nodes whose measured time (the mean of the round trips without the smallest and largest) is least, in any map order; if none has nodes the last that matches, and if none matches the pattern itself. Each registry named in the configuration is visited in order: unknown ones are reported (the last one wins) without stopping the rest, the others are subscribed, asked and notified with the group found, and a group once found stays the same at later registries. (Refuted: a group measured at zero loses to any group measured after it; if a later registry changes the group, the earlier registry stays subscribed after the cluster is destroyed.)", "quantifier": "All group names, idc values, registries, sets of groups, round trip times, map orders and registry lists.", "why_tests_cant": "Combines string patterns, registry contents, map orders and network measurements; tests use one registry with fixed groups.", "anchors": ["cluster/motanCluster.go: parseRegistry, parseFromEnvRegistry, getSubscribeGroup, getBestGroup, Destroy"]}
{"id": "C100", "title": "Measuring round trips: what is counted, and when it ends", "statement": "In every interleaving of the measuring loop and its receiving goroutine, the times kept are exactly those of the replies carrying this pinger's id among the packets looked at, in order; at most the asked number of requests is sent and of replies counted, and the loop is left once there are enough. After the loop is left the receiver takes at most three more steps and the call then returns, provided the receiver is not standing before a full channel, which cannot happen while at most five packets have been read. (Refuted: with more packets on the socket, for example other processes' replies, the call can block for ever; a failing read together with the timeout closes a channel twice and panics.)", "quantifier": "All interleavings of ticks, timeouts, packets of any kind, read errors and channel operations.", "why_tests_cant": "Depends on the interleaving of two goroutines, tickers and foreign packets; tests ping the local host.", "anchors": ["core/ping.go: Ping, sendICMP, recvICMP, processPacket"]}
{"id": "C101", "title": "The agent's http interface: what a request registers, unregisters or subscribes", "statement": "For every request body and configuration: a register or unregister request makes exactly one call for each distinct group it names (its own and the environment's, in order), each with the path and parameters of the body, at the agent's address and export port, remembering the service's own protocol and port, with the application of the agent when the body names none, with the registry the body asks for (by address, or else by registry URL), and with the filters of the agent's configuration, environment and extensions plus the body's af_ filters (all of its filters when none has that prefix); a subscribe request likewise, without address. If the registry asked for is not configured the answer is 400 and nothing is called for any group; unreadable bodies and all other addresses change nothing, and an address with a query is 404. The same body unregisters exactly what it registered, for all map orders, if no two registries have the same address. (Refuted: a group given only as a parameter is answered 200 and nothing is registered; with two registries of one address unregistering may go to the other.)", "quantifier": "All bodies, request addresses, registries, environment values, agent configurations and map iteration orders.", "why_tests_cant": "Depends on map iteration orders and combinations of body, environment and configuration; tests post one body to one registry.", "anchors": ["dynamicConfig.go: ServeHTTP, readURLsFromRequest, readURLs, parseURLs, parseURL, register, unregister, subscribe, registryEquals", "agent.go: initProxyServiceURL"]}
{"id": "C102", "title": "ZooKeeper subscriptions: what listeners are told", "statement": "While the node exists, the session is kept and the registry answers, and nobody subscribes to a service anew before the goroutines of an earlier subscription to it have ended, then for every interleaving of changes, subscriptions, unsubscriptions and short connection losses: once the watching goroutines have nothing left to do, every listener subscribed before the last change has last been told the present nodes (if there are any); they get there in at most three steps each; without connection losses no change is told twice and changes are told in order; and removing the last listener always comes to an end. In all runs a listener is only told lists that the registry held, never an empty one, and nothing while not subscribed. The same holds for commands. (Refuted outside these conditions: a service that does not exist when first subscribed is never watched; subscribing again while an earlier watcher ends leaves it unwatched; a change made while the session is lost is not told; after a short loss each change is told once more per listener; after a failed recovery Unsubscribe blocks for ever holding the lock; after a failed read the goroutine spins and never notifies.)", "quantifier": "All interleavings of changes at the registry, subscriptions, unsubscriptions, connection and session losses, read errors and goroutine steps.", "why_tests_cant": "Depends on the interleaving of watch events, channel operations and lock holders, and on session losses; tests use one listener and no loss.", "anchors": ["registry/zkRegistry.go: Subscribe, doSubscribe, Unsubscribe, SubscribeCommand, doSubscribeCommand, UnSubscribeCommand, handleNewSession, recoverSubscribe"]}
{"id": "C103", "title": "A weighted load balancer uses the latest endpoint list and the weights the servers told last", "statement": "If no server answers later than the refresher waits: whenever no refresh is under way, the balancer uses exactly the endpoints of the list it was given last, in order, each with the weight its server told last (a number, within 1 and 500) or else with its static weight. A tick asks exactly the endpoints that allow it and have not answered that they do not support it; a new list keeps what is known of the endpoints it shares with the one in use and asks only the new ones. Weights never leave 1 to 500. Neither a list nor a tick waits on a server; after the refresher has stopped there are no ticks. (A weight told too late is never used, however often it is repeated on time; if the time runs out just after the last answer, the process panics; a period of 0 or above 9223372036 seconds panics.)", "quantifier": "every sequence of endpoint lists, ticks, answers (weight, error, not supported), time-outs, late answers and destruction, every interleaving of the goroutines' steps, every static weight and endpoint", "why_tests_cant": "whether a change is noticed depends on the order of the answers, the time-out and the notification", "anchors": ["lb/weightedEpRefresher.go: NewWeightEpRefresher, Destroy, RefreshWeightedHolders, refreshDynamicWeight, getEpWeight, doRefresh, refreshHolderDynamicWeightTask, BuildWeightedEpHolder, getWeight", "lb/weightRoundRobinLb.go: NotifyWeightChange"]}
{"id": "C104", "title": "A server context exports exactly the services it can, where they are configured", "statement": "RegisterService accepts exactly pointers whose name is some configured service's ref, and the implementation given last counts. Start exports, whatever the order it visits the services in, exactly the implemented services with a readable place and known kinds that are first at their place or agree with the first there in protocol and serialization; every exported service is announced once to each of its known registries with the protocol, host and port configured, and answers for its path there. If all services fit together the outcome does not depend on the order. ServicesAvailable and ServicesUnavailable then tell each registry in use once. (Not so: with conflicting services the map order decides; a server that cannot listen is announced anyway and takes the services sharing it down silently; a socket named only in proxy.host means a random port announced as 0; '8002' and '08002' are two servers on one port; one path in two groups is announced twice and answered by one; availability set before Start is lost.)", "quantifier": "all configurations, implementations, orders of visiting the services, listening outcomes and panicking registries", "why_tests_cant": "the order is a Go map's and the clashes depend on every pair of services; a test exports one or two services", "anchors": ["server.go: RegisterService, Start, export, canShareChannel, ServicesAvailable, ServicesUnavailable, availableService, unavailableService", "server/motanserver.go: Open", "server/server.go: DefaultExporter Export"]}
{"id": "C105", "title": "An agent starts with the settings of its flags, environment and configuration", "statement": "An agent starts if and only if every setting it reads from its configuration section has the expected type and its runtime directory can be made; then each port and file is the one of the flag, else of the configuration, else the documented default (9981, 8002, 9982, 9983, ./agent.pid, ./agent_runtime), where the environment variable mport replaces the configured management port; configured log settings replace the flags; every configured switcher is registered with its value; the agent's own url has its application (else its group, else default_agent_group) as group and application and the configured management port; a domain has an http cluster exactly when a usable http client is configured for it; the management port listens on the first free port of its range. (Refuted: an unparsable environment port hides the configured one; -log_dir=x is ignored; the port the agent announces need not be the one its management port listens on; an unnamed agent names its url but not its process; two http clients with one domain are chosen between by map order.)", "quantifier": "every command line, environment, configuration section (any value under any key, any order), set of free ports and set of http clients", "why_tests_cant": "The settings interact by precedence and type over unboundedly many combinations; tests fix one configuration file.", "anchors": ["agent.go: initParam, initAgentURL, SetSanpshotConf, initHTTPClusters, startMServer", "agent.go: initLog, registerSwitchers", "cluster/httpCluster.go: NewHTTPCluster"]}
{"id": "C106", "title": "A started agent waits for its clusters and passes its registry's commands on", "statement": "An agent that goes on because its clusters are complete has had every one of them finish, well or by a panic; it goes on earlier only when the timer of initClusterTimeout milliseconds (ten seconds by default) has fired, and it never keeps waiting once the timer fired or all finished. It registers its own url, with the local address if it has none, exactly when it names a configured and implemented registry. Its clusters are told nothing but commands the registry had; if the command does not change while the agent registers itself and no cluster is added later, then once all is delivered every cluster was last told the registry's command; a repeated command is not delivered again, and one a handler serves reaches no cluster. (Refuted: the waiting goroutine ends after a timeout; the agent serves only with all clusters; a comma separated list of registries works for the agent; a cluster added later learns the command; a change during registration is never lost; a repeated command is ignored when a handler answers another text.)", "quantifier": "every number of clusters, order of finishing and panicking, timer, agent url and registry, every history of command changes, cluster additions and removals, set of handlers and every interleaving of the pushing and the registering goroutine", "why_tests_cant": "The outcome depends on the order in which goroutines finish, the timer fires and pushes arrive; a test sees one order.", "anchors": ["agent.go: initClusters, registerAgent", "agent.go: AgentListener.NotifyCommand"]}
{"id": "C107", "title": "Nodes of the ZooKeeper registry and the commands it reads", "statement": "Making the node of a service or an agent in ZooKeeper leaves it holding the url under /motan/group/service/type/address (/motan/agent/application/node/address), as the session's own node, with every node above it present, and every other node as it was; whichever calls fail, at most empty nodes above it are added and nothing else is changed; making the nodes above ends whatever calls fail by the connection, as long as none is refused. DiscoverCommand answers the text of /motan/group/command (/motan/agent/application/command for an agent), nothing when there is none, the registry is not available or a call fails, and changes nothing. (Refuted: making the nodes above ends where the access control refuses new nodes or below a session's own node: it then calls itself without end; a failed call is repeated; nodes of services and commands never share a path.)", "quantifier": "every tree of nodes, group, service, application and address, every pattern of failing calls and every access control", "why_tests_cant": "The recursion depends on the tree, the failures and the refusals met on the way; a test has one tree and no failures.", "anchors": ["registry/zkRegistry.go: createNode, createPersistent, removeNode", "registry/zkRegistry.go: DiscoverCommand, toNodePath, toAgentNodePath, toCommandPath, toAgentCommandPath"]}
{"id": "C108", "title": "Start of the metrics reporter, status samples, panics and removed items", "statement": "Whatever sequence of starts, writers, samplers, panics and reports: the first start alone decides the seconds between two reports (the period, 5 where it is not positive or the section is missing), the number of event loops (2 to 50 as set, else 1), that there is one sink, and whether panics and status samples are counted (only with an agent's url, under its application, else unknown); a name has the writer offered last for it and the empty name none; a report goes to every writer exactly once, whichever answer errors; a tick offers one gauge for each sampler registered and not unregistered; each recovered panic of an agent offers one count; and from a moment at which no removal of items is under way until one begins every event is in its item, in a report or on its way. (Refuted: every period is kept: 9223372037 seconds end the process; a writer or sampler that panics costs the others nothing; a sampler may register another; an event that begins after an item was removed is reported.)", "quantifier": "every history of starts, writers, registrations, ticks, panics and reports, every configuration and url, every order in which a map is visited, every interleaving of events, reports and removals", "why_tests_cant": "Which start is first, which writer comes last and what runs beside a removal depend on the whole history and schedule; a test has one.", "anchors": ["metrics/metrics.go: StartReporter, AddWriter, sink, sampleStatus, RMStatItem, ClearStatItems, GetOrRegisterStatItem", "metrics/sampler/sampler.go: RegisterStatusSampler, UnregisterStatusSampler, RangeDo", "core/util.go: HandlePanic"]}
{"id": "C109", "title": "Hourly rotation of a log and the tidying of old files", "statement": "With hourly rotation, whenever its sleeps end, at most one rotation is made in an hour of the wall clock and none in the hour it started, so no backup takes the name of another; when every sleep ends a little late (more than 0 and at most d ns), each is followed by a rotation at most d after an hour began. The goroutine that deletes and compresses old files is started once, and no request to it is lost: when none is queued a run began after every request, and a queued one can always begin when none runs. (Refuted: a sleep that ends at the very moment the hour begins is followed by the rotation soon: it sleeps the whole time again; once an hour even where the clock is set back.)", "quantifier": "every start time and zone, every sequence of wake-up times, every schedule of requests and runs", "why_tests_cant": "The times at which sleeps end are the scheduler's; a test mocks the clock and cannot wait for hours.", "anchors": ["log/rotate.go: rotatePerHour, mill, millRun, backupName"]}
{"id": "C110", "title": "Client contexts: one for each file, and the clients in them", "statement": "A configuration file that was taken once is answered with the same context ever after, whatever the file has become, and is not read again; until then every call reads it. Two files, or a configuration given directly, never share a context. A configuration is taken exactly if its sections have the forms they must have; otherwise the call panics and keeps nothing. GetClient gives nothing before Start; after it, a client for each service of the configuration the context was made of and for no other, with the address, group, path and parameters the service's section says, completed by the basic section it names, the filters wanted, a cluster of its own and the factory of the last Start. Each Start makes one cluster for each service. Switchers get the value of the first configuration that names them (section \"switchers\" before \"switcher\") and keep it. The log directory is the configured one, or \".\". (Refuted: a service has one cluster: a second Start makes new ones and never closes the old; placeholders are replaced as for an agent; the agent's suffix for groups leaves clients alone; a number as log directory is reported.)", "quantifier": "every history of calls, every content of the files at every moment, every configuration and environment, every order of map iteration", "why_tests_cant": "A test looks at one file that does not change, started once.", "anchors": ["client.go: NewClientContextFromConfig, GetClientContextWithFlagParse, MCContext.Initialize, MCContext.Start, MCContext.GetClient", "core/globalContext.go: NewContextFromConfig, Initialize, parseHostURL, basicConfToURLs, parseRefers", "core/switcher.go: initSwitcher, Register"]}
{"id": "C111", "title": "The report of /runtime/info tells the truth", "statement": "The runtime report of an agent lists every node of every cluster exactly once, under its place and identity, among the available or the unavailable nodes as it answers at that moment, with the number of nodes, the cluster's URL and its filters in order; every exported service, cluster, http cluster, registry and serving port has exactly one entry with its own report. The wrapper around a registry reports the command texts it last received and the last ten texts and node lists, numbered and dated, oldest first; while a traffic command is in force the weights are those it gives. An answer holds exactly the parts that were asked for, or all. (Refuted: of two registries of a cluster with one identity only the last is reported; the weights of a withdrawn traffic command stay reported; while the agent starts, a request that includes the servers is not answered, because the management port is opened before the agent's server exists.)", "quantifier": "every cluster with every list of nodes, registries and filters; every history of commands and node lists; every agent and every text of requested keys", "why_tests_cant": "the report is built from unbounded lists and histories; key collisions only show for particular nodes", "anchors": ["cluster/motanCluster.go: GetRuntimeInfo", "cluster/command.go: GetRuntimeInfo, toRecordInfo, processCommand, getResultWithCommand, clear", "cluster/httpCluster.go: GetRuntimeInfo", "server/motanserver.go, server/httpProxyServer.go, server/server.go: GetRuntimeInfo", "core/motan.go: DefaultExtensionFactory.GetRuntimeInfo, CircularRecorder", "agent.go: GetRuntimeInfo, StartMotanAgentFromConfig", "manageHandler.go: RuntimeHandler"]}
{"id": "C112", "title": "The http sections of the configuration are read as they are written", "statement": "The locations by which an http domain routes are exactly the entries written for that domain under http-locations, in their order, with the upstream, match, type and rewrite rules written there; nothing written for another domain changes them, and a domain for which no list is written routes nothing. The cluster of a domain exists exactly when a domain is named and its registry, if configured, can be had; it serves a path exactly when the location nginx would choose has a non-empty upstream which the registry lists or, for a registry that cannot list services, which is preloaded. The settings of an http service's method are the strings written under the keys that name it. (Refuted and kept as findings: an entry with a number in place of a string, or a blank type, stops the agent by a panic instead of being skipped; so does a number among the settings of an http service; a method named under two keys gets the settings of whichever key Go happens to visit last.)", "quantifier": "every configuration tree, domain, URL, registry table, path and order of visiting maps", "why_tests_cant": "all configuration trees and map orders", "anchors": ["http/httpProxy.go: NewLocationMatcherFromContext", "cluster/httpCluster.go: NewHTTPCluster, CanServe", "provider/httpProvider.go: Initialize", "provider/httpxProvider.go: Initialize"]}
{"id": "C113", "title": "A call through the agent gives the result a direct call would", "statement": "A client that sends its request to the agent sees the same outcome as one that sends it to the server behind the agent: the value the method computes, or the same error, also when the service is not exported there. The server's handler is given the caller's request id, service, method, arguments and every attachment that can travel, with the agent's address as the host and the group of the endpoint, else of the request, else of the reference. A request that no cluster takes is answered with an error that says why, and one for which nothing comes back from the server with an error of the agent: the caller is not left without an answer.  The answer the agent writes has the caller's request id, the status and every attachment of the server's answer, and names the server's address. A request that only an http cluster takes is answered by that cluster.", "quantifier": "every client, agent, server and service, every ordinary request with its arguments and attachments, every request id and stream number, and every table of clusters that sends the request on", "why_tests_cant": "all methods, arguments, attachments, ids and cluster tables, through four encodings and decodings of the message", "anchors": ["agent.go: agentMessageHandler.Call, clusterCall, findCluster, getDefaultResponse", "server/motanserver.go: processV2", "endpoint/motanCommonEndpoint.go: Call, Send, notify", "protocol/motanProtocol.go: ConvertToRequest, ConvertToReqMessage, ConvertToResponse, ConvertToResMessage"]}
{"id": "C114", "title": "A gRPC endpoint and the breeze serialization carry exactly what they are given", "statement": "A call through a gRPC endpoint asks for /service/method with the bytes of the argument and metadata that say what the attachments say: every value once, under its key in lower case, and nothing else; the answer's bytes are the value, an error's code and text the exception, and an argument that is not bytes is refused. Behind the agent the client's body reaches the gRPC server uncompressed and the gRPC server's bytes reach the client under its own request id, marked as serialized by gRPC. Values written by the breeze serialization one after the other are read back as written, whatever follows, if the library reads back single values; writing fails exactly when one value cannot be written. (Refuted and kept as findings: a call without arguments panics, and the client behind the agent is told 'cluster call panic'; attachments whose keys differ only in capitals arrive as two values of one key in an order that is not fixed.)", "quantifier": "every service, method, argument, attachment map and visiting order, every answer of gRPC, every message a client sends to the agent, and every list of values", "why_tests_cant": "all attachments, payloads, answers and value lists", "anchors": ["endpoint/grpcEndpoint.go: GrpcEndPoint.Call, agentCodec", "cluster/motanCluster.go: Call", "serialize/breeze.go: BreezeSerialization"]}
{"id": "C115", "title": "An endpoint's settings are those of its URL, and it connects and recovers by its periods", "statement": "Every setting of an endpoint (connect timeout, retry period, error threshold, keepalive period, request timeouts, number of connections, largest message, lazy and asynchronous connecting, compression threshold) is the value its URL gives, or the documented default when the URL gives none or an unusable one; a unix socket is dialled by its path and anything else as host:port with the connect timeout of the URL. With a positive retry period an endpoint comes up with the first attempt in which all its dials succeed, failed attempts change nothing, and with positive periods every state it reaches is one that C28 speaks about. (Refuted and kept as findings: with a keepalive period that is not positive an endpoint taken down by errors never comes back, whatever the server would answer; with a retry period that is not positive an endpoint whose first attempt fails never comes up.)", "quantifier": "every URL, every stored default, every sequence of dial results and every interleaving of calls, heartbeats, connection attempts and Destroy", "why_tests_cant": "all URLs, dial results and interleavings", "anchors": ["endpoint/motanCommonEndpoint.go: Initialize, initChannelPoolWithRetry, keepalive", "endpoint/motanEndpoint.go: Initialize, initChannelPoolWithRetry, keepalive, SetMotanEPDefaultAsynInit", "core/url.go: GetTimeDuration, GetBoolValue, GetAddressStr"]}
{"id": "C116", "title": "An http request sent as an RPC reaches the upstream as it was, and its answer comes back as it was", "statement": "For an http request that the agent's http proxy sends as an RPC to a server with an http provider for the service, exactly one http request is made of the upstream. It has the client's raw header and body byte for byte, the path as the provider's location rules rewrite it (or unchanged when rewriting is off), the headers MOTAN-p, -m, -pp, -s and -g naming service, path, protocol, application and group and no others, and the agent's address as X-Forwarded-For if the client sent none. The client is answered with the upstream's raw header and body byte for byte; an upstream that cannot be reached, or an error status when the provider turns those into exceptions, gives a 502 whose text is the error or the body; a path no rule matches gives a 502 and nothing is sent upstream. (Refuted and kept as a finding: a path containing a decoded newline is dropped on the way and the upstream is asked for the empty path.) A service the server does not export gives a 502 that names it, and nothing is sent upstream.", "quantifier": "every service and path of one line, every header and body below the size limits, every location matcher, every behaviour of the upstream, every compression threshold", "why_tests_cant": "all bytes of headers and bodies, all upstream behaviours and all settings", "anchors": ["server/httpProxyServer.go: doHTTPRpcProxy", "cluster/httpCluster.go: Call", "endpoint/motanCommonEndpoint.go: Call, fitGroup, Stream.Send, Stream.notify", "server/motanserver.go: processV2", "provider/httpProvider.go: Call, DoTransparentProxy", "serialize/simple.go: SerializeMulti, DeSerializeMulti"]}
{"id": "C117", "title": "Calls that share a connection get their own results, each is handled at most once and no answer is lost", "statement": "When many callers use one connection at the same time, then whatever the order in which their calls, the two reading loops and the server's handlers run, however the network cuts and delays the bytes, and in whatever order the handlers finish: a call that returns an answer has the id of its own request, and what it reads is what this request alone over a connection of its own would have given, namely the result of the called method on its own arguments. The server handles each call at most once and handles nothing that was not called. Neither side ever sees bytes that make it give up the connection. When neither worker pool refuses a message and the server keeps the connection open, then once nothing is on its way and every message has been handled, a call that still waits can return its answer.", "quantifier": "every interleaving of calls, heartbeats, timeouts, closes, handlers and loops, every cutting of both byte streams, every number of calls, every provider, argument and result within the size limits", "why_tests_cant": "all schedules of several goroutines on two machines and all ways bytes can be cut, together with all arguments", "anchors": ["endpoint/motanCommonEndpoint.go: Channel.Call, NewStream, Stream.Send, Stream.Recv, Stream.notify, Channel.recvLoop, handleMsg", "server/motanserver.go: handleConn, processV2", "provider/motanProvider.go and provider/defaultProvider.go: Call", "protocol/motanProtocol.go: Decode, Encode"]}
{"id": "C118", "title": "A server accepts until it is destroyed, then stops, and counts its connections", "statement": "A server that is open goes on accepting connections whatever errors accepting gave before; connections are accepted in the order in which they were established and each at most once. Destroy never blocks, however often it is called; from then on nothing more is accepted, and once it has returned the accept loop ends within two of its own steps. Connections already accepted are left alone by Destroy and by everything else but their own peer, so calls in flight are still answered. The reported number of connections is at any time exactly the number being handled by all servers of the process. The host of a request over a connection that is not TCP is what is before the colon of its address. (Refuted and kept as findings: the loop logs errors without bound while Destroy is between its two steps or while accepting keeps failing, as it never waits; the host of a bracketed IPv6 address would be a bracket.)", "quantifier": "all numbers of servers, all interleavings of peers connecting, accept errors, Destroy calls and connections ending, all addresses", "why_tests_cant": "a test sees one schedule: whether the accept error or the signal of Destroy comes first, and whether the counter is right under every interleaving, depends on the scheduler", "anchors": ["server/motanserver.go: Open, Destroy, run, handleConn, getRemoteIP, incrConnections, decrConnections, getConnections"]}
{"id": "C119", "title": "A call through a cluster with failover gets a server's result", "statement": "A call through a cluster with failover is told what one of its attempts gave: the first attempt that gave a value or a business exception, or the last attempt allowed by the configured retries, or that there is no endpoint; all attempts before it were unsuccessful. If one of the endpoints tried reaches a server on which the method succeeds, the caller gets the value the method computes there for these arguments, whatever failed on the endpoints before it: servers not reached, answers lost, services not exported there, methods that panic or do not exist. If all fail, the caller is told the last exception unchanged. If the endpoints before were not reached, exactly one server handles the call, once. A request that cannot be serialized fails without reaching any server. (Refuted and kept as a finding: a call is handled at most once; when answers are lost or the method fails, every server tried handles it.) A value always comes from a server that was reached and whose answer came back, and the only exception that ends a call before its last attempt is a business exception a server sent.", "quantifier": "all clients, servers, services, methods, arguments, retries configured, sequences of endpoints selected, and losses of requests and answers", "why_tests_cant": "a test sees a few servers and one pattern of losses; which attempt's value comes back must be right for every sequence of failures and every method", "anchors": ["ha/failoverHA.go: Call", "endpoint/motanEndpoint.go: Call, defaultErrMotanResponse", "client.go: Call", "cluster/motanCluster.go: Call"]}
{"id": "C120", "title": "With round robin and as many attempts as endpoints, a call reaches a working server", "statement": "If a failover cluster selects endpoints by round robin, is configured with at least as many retries as it has endpoints, less one, and one of its endpoints says it is available and has a server on which the method succeeds, then a call that is not disturbed by others returns the value of a server on which the method succeeds, within as many attempts as there are endpoints, whatever fails on the other endpoints, whatever they say about their availability and whatever is drawn at random instead of them. While one endpoint says it is available no call, disturbed or not, is told that there is no endpoint. (Refuted and kept as findings: the same for calls made at the same time, which share the counter, and when the 32-bit counter wraps.)", "quantifier": "all clients, servers, methods, arguments, numbers of endpoints, counters below the wrap, answers about availability, random draws and losses", "why_tests_cant": "a test sees one starting point of the counter and one pattern of failures; that no pattern makes a call miss the working endpoint needs an argument about every sequence of selections", "anchors": ["ha/failoverHA.go: Call", "lb/roundrobinLb.go: Select, roundrobinSelect", "lb/lb.go: SelectOneAtRandom", "endpoint/motanEndpoint.go: Call"]}
{"id": "C121", "title": "The reply variable of a call with backup requests holds an answer to that call", "statement": "However the requests, backup requests, timers and answers of any number of calls at once interleave, the reply variable of a call holds nothing but a value an endpoint answered this very call with. When a call has returned a value and the endpoints that answered it agree, the variable holds the value of the response returned, and goes on doing so while they agree. (Refuted and kept as findings: all requests of a call store through the same pointer, so when the answers differ the variable can hold another server's answer than the response returned, can change after the call has returned, and is written even after a call returned an error.)", "quantifier": "all numbers of calls, all interleavings of requests, answers, timers and deadlines, all answers", "why_tests_cant": "which answer is stored last depends on the schedule of the goroutines and on servers answering after the call has returned", "anchors": ["ha/backupRequestHA.go: Call, doCall", "core/motan.go: MotanRequest.Clone", "endpoint/motanEndpoint.go: Call"]}
{"id": "C122", "title": "A dead server costs the callers of a cluster a bounded number of attempts", "statement": "With round robin, an endpoint on which every call fails is tried at most errorCountThreshold times, and that often again for each heartbeat it answers, however many calls are made and whatever the other endpoints do. If one endpoint always answers and every other one either always answers or is dead (calls fail, no heartbeat is answered), then over all calls ever made the attempts that are not answered number no more than the thresholds of the dead endpoints together. (Refuted and kept as findings: an endpoint that fails every second call is never taken down; neither is any with a threshold of zero or less; a server that answers heartbeats but fails every call comes back each time. In these cases failures have no bound.) Each endpoint counts errors and goes down and comes back exactly as the endpoint of C28 does when its steps are taken one call at a time.", "quantifier": "all numbers of endpoints, all thresholds, all sequences of attempts, outcomes and heartbeats, all random draws, all starting counters", "why_tests_cant": "the bound is over all the calls a cluster will ever make, with every pattern of failures and every random choice", "anchors": ["lb/roundrobinLb.go: Select, roundrobinSelect", "lb/lb.go: SelectOneAtRandom", "endpoint/motanCommonEndpoint.go: recordErrAndKeepalive, resetErr, heartbeat", "endpoint/motanEndpoint.go: recordErrAndKeepalive, keepalive"]}
{"id": "C123", "title": "A dead server costs callers that call at the same time a bounded number of attempts", "statement": "With round robin or random selection and W callers at once, however their attempts begin and end, an endpoint on which every call fails is selected at most errorCountThreshold + W - 1 times, and that often again for each heartbeat it answers. If one endpoint always answers, then whatever the others do, the attempts that find no endpoint or a dead one number, over all calls ever made, no more than errorCountThreshold + W - 1 for each dead endpoint. (Refuted and kept as a finding: the threshold alone is no bound; calls begun before the first failure is counted all go to the dead endpoint.)", "quantifier": "all numbers of endpoints and callers, all thresholds, all interleavings of attempts beginning and ending and of heartbeats, all random draws, all starting counters", "why_tests_cant": "the bound is over every interleaving of calls and every number of them", "anchors": ["lb/roundrobinLb.go: Select, roundrobinSelect", "lb/randomLb.go: Select", "lb/lb.go: SelectOneAtRandom", "endpoint/motanCommonEndpoint.go: Call, recordErrAndKeepalive, resetErr, heartbeat", "endpoint/motanEndpoint.go: Call, recordErrAndKeepalive, keepalive"]}
