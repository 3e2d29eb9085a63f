# Formal model of motan-go: design

Code under study: `/repo` (weibocom/motan-go, pinned commit, Go 1.16).  The model is written in Coq 8.16.1
under `rocq/theories`, logical name `Verif`.  Nothing is extracted or run against the Go code; the tie to the
code is the citation (file and lines) on every definition of the model.

## Layout

For every area `X` of the code:

* `XModel.v`  executable Gallina definitions, one per Go function, each with a citation; no proofs.
* `XSpec.v`   the small independent specification.
* `XProofs.v` lemmas.
* `XProps.v`  only property theorems, `Print Assumptions`, and `Example`s showing that the hypotheses are met by
  a concrete, non-trivial case.

`Base.v`, `Lists.v`, `GoStrings.v`, `GoStrings2.v` and `Strconv.v` hold what several areas share: bytes,
association lists, and the functions of Go's `strings` and `strconv` packages that the code uses.

Conventions: bytes are `Byte.byte`, Go strings and `[]byte` are `list byte`; fixed-width integers are `N`/`Z`
with explicit `mod 2^k` where wrapping matters; Go maps are association lists with distinct keys and theorems
quantify over all orders (Go iteration order is arbitrary); panics are explicit results; external calls
(clock, random numbers, regexps, network, handlers, JSON, gzip) are function parameters or scripted inputs;
goroutines are state machines over explicit atomic steps, named at the head of each model file, and the theorems
hold for every list of steps.

A theorem whose name ends in `_refuted` is a finding: a reading of the property that one would expect and that is
false of the code, shown by a concrete witness (or for a whole class of inputs).  The property text then states
what is true and names the refuted reading in parentheses.

## Properties: plan and outcome

| id | what is modelled | how it is proved | outcome |
|----|------------------|------------------|---------|
| C01 | `BytesBuffer` with backing array, `wpos`, `grow` | refinement: content = concatenation, induction over op list | proved, 4 theorems |
| C02 | varint, zigzag, fixed reads/writes | round-trip law with arbitrary suffix | proved, 5 theorems; refuted readings: read_beyond |
| C03 | `Encode0/Encode/DecodeWithTime` over byte streams | round-trip law | proved, 2 theorems |
| C04 | repeated decode | induction over the message list from C03 | proved, 1 theorem |
| C05 | `DecodeWithTime` on arbitrary streams | inversion of the decoder | proved, 4 theorems |
| C06 | header setters/getters | finite sweep over bytes lifted by `forallb_forall`, then induction over setter sequences | proved, 3 theorems; refuted readings: negative_values |
| C07 | `serializeBuf`/`deSerializeBuf` | induction on values | proved, 5 theorems; refuted readings: nil_element, empty_container_target |
| C08 | `SerializeMulti`/`DeSerializeMulti` | induction on the argument list | proved, 1 theorem |
| C09 | `deSerializeBuf` on arbitrary bytes with explicit panic result | termination by fuel bound, no out-of-range read; panic on unhashable keys shown as refutation | proved, 4 theorems; refuted readings: no_panic, multi_truncation |
| C10 | `ConvertTo*` | round-trip through metadata map | proved, 7 theorems; refuted readings: value_with_exception |
| C100 | Ping and recvICMP as a state machine over steps on the channel, the done channel and the counters | invariant over all runs; bounded measure for leaving; concrete runs for the refuted halves | proved, 3 theorems; refuted readings: stuck, close_twice |
| C101 | the handler from body to the calls made to the configurer, with map orders and decoding as parameters | case analysis and induction over the groups; filters against a set specification; uniqueness of the registry for distinct addresses | proved, 6 theorems; refuted readings: group_parameter, same_address |
| C102 | one node of the registry with its listeners, watching goroutines, watch and switcher channels and the lock as a state machine | invariants over all runs; decreasing measure for settling; concrete runs (with universally quantified continuations) for the findings | proved, 7 theorems; refuted readings: missing_node, resubscribe, lost_session, duplicate, unsubscribe, spin |
| C103 | the refresher as a machine over list refreshes, ticks, the goroutine reading each endpoint, the waiting goroutine and time-outs | invariants over all runs; concrete runs (with any number of repetitions) for the findings | proved, 10 theorems; refuted readings: crash, late, period |
| C104 | server.go's MSContext: implementations, servers by place, providers by path, registries by identity, events (listen, register, available) | invariant over the prefix of the visiting order, against a specification by first holder of a place; permutation invariance for configurations that fit | proved, 7 theorems; refuted readings: order, deaf, port_zero, same_port, groups, early |
| C105 | initParam, initLog, registerSwitchers, SetSanpshotConf, initAgentURL, initHTTPClusters and the listener of startMServer as functions from flags, arguments, environment and the configuration's value tree to settings or a panic | equivalence between starting and well-typedness; literal precedence lists for each setting; induction over the http clients and over the port range; witnesses for the refuted halves | proved, 9 theorems; refuted readings: env, log_dir, announced, name, domain |
| C106 | initClusters as a state machine of jobs, timer, waiting goroutine and select; registerAgent as a function; the registry, its pushing goroutine, the registering goroutine and AgentListener.NotifyCommand as a state machine | invariants by induction over all steps; three stages of the registration for the up-to-date theorem; witnesses for the refuted halves | proved, 8 theorems; refuted readings: leak, missing, registries, late, overtaken, again |
| C107 | createNode, removeNode, createPersistent (with fuel), DiscoverCommand and the paths over a tree of nodes with failing calls and refused parents | induction over the names of a path, over the fuel and over the number of failures; witnesses and induction over the fuel for the refuted halves | proved, 7 theorems; refuted readings: denied, ephemeral, lost, shared |
| C108 | the reporter's state, samplers, writers and events offered under every operation; items, their counters and the removals step by step | induction over histories; a sum over item, reports and jobs kept by every step; witnesses for the refuted halves | proved, 8 theorems; refuted readings: period, first, writer_panic, sampler_panic, sampler_registers, removed |
| C109 | rotatePerHour as a machine over wake-up times, with the time each backup is named; mill and millRun over the channel of capacity 1 | induction over the wake-ups and the schedule with the hour of the round as invariant; witnesses for the refuted halves | proved, 4 theorems; refuted readings: exact, set_back |
| C11 | `writeBlock`/`getBlock` | round-trip law, with the side condition the code needs; refutation without it | proved, 2 theorems; refuted readings: full_blocks |
| C110 | contexts by file name, contexts with their clients, the process's switchers, flags and clusters, as a machine over calls with the content of the file as a parameter; reading a configuration composes the functions of CtxModel and BootModel | invariants over histories (table of files injective, clients of a context follow its configuration and last Start); composition with the theorems about sections, basic sections and filters; witnesses for the refuted halves | proved, 9 theorems; refuted readings: restart, placeholders, suffix, log_dir |
| C111 | all GetRuntimeInfo methods as functions to report values, the wrapper's two recorders beside the state machine of C24, the handler's choice of parts | induction over the list of nodes (keys injective in the place), over histories of timed events (ring recorder of C37), generic lemma on maps built from lists with distinct keys | proved, 14 theorems; refuted readings: registries, weights, starting |
| C112 | the readers of http-locations and http-service over the configuration tree, panics explicit, and the constructor of the http cluster | iff with a relational description of what is written; composition with C40's nginx_choice and C86's settings_of | proved, 9 theorems; refuted readings: malformed, number, setting, order |
| C113 | client, agent server, agent handler, endpoint and server composed from the models of the codec, the conversions, the servers and the agent's tables | forward simulation: what a message carries is kept by each hop; the answer read by the client is the answer read at the agent; composition with C81 | proved, 8 theorems |
| C114 | Call over an oracle for grpc.Invoke, metadata.New written out, composed with the agent's server; breeze's loops over a single-value oracle | equations and a relational description of the metadata; induction on the values | proved, 9 theorems; refuted readings: no_argument, capitals |
| C115 | Initialize and the address as functions of the URL; the machine of C28 refined with dial results, NewChannelPool of C29 and the two tickers | equations for the settings; refinement and invariants by induction over histories | proved, 6 theorems; refuted readings: keepalive |
| C116 | http proxy, cluster, endpoint, server and provider composed from the models of the codec, the conversions, the serialization, the server and the http provider | what a message carries is kept by each hop (lemmas of C113), the pair of byte slices by the round trip of C01/C81; the added headers by computing the metadata sent | proved, 3 theorems; refuted readings: newline |
| C117 | the stream model of C27, the server's connection of C31 and the provider round trip of C81 composed with two byte queues into one transition system | invariant: the jobs are the messages of the first n sent calls, the bytes under way are the frames of the rest, every answer under way or delivered answers a sent call; then C27's delivery and C81's every_call; for nothing lost a second invariant over histories without refusals | proved, 5 theorems |
| C118 | any number of servers with their listener, accept loop (at Accept, at the select, returned), the one-place channel of Destroy, the connections and the counter they share | invariant over all reachable states (listener, loop and channel of each server agree; accepted and waiting connections sorted, disjoint and older than the next; counter = those being handled); a measure of the loop steps left after Destroy | proved, 8 theorems; refuted readings: logged, ipv6 |
| C119 | FoModel.v: the failover loop of HaModel.v over attempts that are each a whole round trip of ProvModel.v over a link that passes, does not reach the server, or loses the answer | composes the outcome relation of C19 with the round trip of C81, for which the exception that comes back is shown to be the one the provider gave. | proved, 10 theorems; refuted readings: at_most_once |
| C12 | `encodeMotanV1`, `parseReq` | composition of C11 with string framing | proved, 1 theorem; refuted readings: separate_block, full_target |
| C120 | RrfModel.v: the failover trip of FoModel.v over the selections of roundrobinSelect of LbModel.v, with the shared counter moved by other calls between attempts | n consecutive counters pass every position modulo n, so the working endpoint has its turn; the first working attempt before it decides by C119. | proved, 2 theorems; refuted readings: shared_counter, wrap |
| C121 | BrrModel.v: the system of C20 (HaModel.v) with the reply variable of every call, written by each answering endpoint through the pointer the clones share | invariant over all runs linking the variable to the answers heard by the call, with C20's result for the response returned. | proved, 3 theorems; refuted readings: returned_value, settled, error_untouched |
| C122 | DthModel.v: round robin (LbModel.v) over endpoints with their error counter and availability, one attempt or heartbeat at a time | budget of errors left to each endpoint as a potential, by induction over the events; unanswered attempts are counted per dead endpoint. | proved, 4 theorems; refuted readings: flapping, disabled, heartbeat |
| C123 | DcoModel.v: the cluster of C122 with attempts that begin and end separately, at most W under way | potential: errors left before the endpoint goes down plus free callers; induction over the events. | proved, 2 theorems; refuted readings: overlap |
| C13 | `GenerateRequestID` | arithmetic on bit fields for arbitrary clock | proved, 1 theorem |
| C14 | random / round robin `Select`, `SelectArray` | loop lemmas for every start index | proved, 5 theorems |
| C15 | round robin counter | counting lemma over windows | proved, 2 theorems; refuted readings: wrap |
| C16 | ring construction and selectors | counting over the ring, permutation invariance | proved, 4 theorems; refuted readings: wrap |
| C17 | `WeightedLbWrapper` | smooth weighted cycle: invariant + counting | proved, 2 theorems; refuted readings: refresh_panics |
| C18 | consistent hash ring | deterministic function of key and ring | proved, 5 theorems; refuted readings: single_unavailable, no_ring_panics |
| C19 | `FailoverHA.Call` with scripted endpoint | induction on retry count | proved, 3 theorems |
| C20 | backup permits | invariant over request history | proved, 7 theorems; refuted readings: ratio_of_traffic, prompt_failure |
| C21 | `Notify`/`refresh` | invariant over notification histories | proved, 10 theorems; refuted readings: ignored_notification, duplicate_leak, destroy_filtered |
| C22 | `RefersFilter` | list lemma against declarative predicate | proved, 2 theorems |
| C23 | `processRoute`, `isMatch` | refinement to declarative predicate | proved, 1 theorem; refuted readings: name_with_to, middle_star |
| C24 | command wrapper state machine | invariant over histories | proved, 13 theorems; refuted readings: unreadable_text, repeated_group_leak, route_fallback |
| C25 | filter chain construction | trace equality | proved, 4 theorems |
| C26 | fail-fast | invariant over histories and interleavings | proved, 5 theorems; refuted readings: probe_lost, interleaved_success |
| C27 | channel/stream state machine | inductive invariant over all interleavings | proved, 7 theorems; refuted readings: send_error_leak, forged_id |
| C28 | error counter / keepalive | invariant over interleavings | proved, 13 theorems; refuted readings: stranded, threshold_truncated, destroyed_revives |
| C29 | channel pool | token invariant | proved, 11 theorems; refuted readings: panic, closed_returned |
| C30 | timeout selection | case analysis | proved, 3 theorems; refuted readings: zero_timeout, overflow |
| C31 | `processV2` | for every handler result | proved, 12 theorems; refuted readings: motan1_bad_request, motan1_no_result, overload |
| C32 | message handlers | refinement to a map | proved, 7 theorems; refuted readings: agent_key_clash, agent_stale_remove |
| C33 | exporter | state machine | proved, 5 theorems; refuted readings: unknown_registry, available_after_unexport |
| C34 | `ToExtInfo`/`FromExtInfo` | round-trip law | proved, 4 theorems; refuted readings: unescaped |
| C35 | int cache | refinement to parse of latest value | proved, 6 theorems; refuted readings: direct_identity, merge, concurrent_put |
| C36 | `CanServe`, `IsMatch` | equivalence with declarative rules | proved, 2 theorems |
| C37 | circular recorder | refinement to list suffix | proved, 2 theorems; refuted readings: empty_ring, concurrent_readers |
| C38 | copy-on-write map | refinement to map, snapshot lemma | proved, 1 theorem; refuted readings: unsafe_store |
| C39 | switchers | refinement | proved, 3 theorems; refuted readings: last_notification, empty_name |
| C40 | location matcher | equivalence with declarative priority | proved, 9 theorems; refuted readings: empty_prefix, trailing_space, value_rescanned |
| C41 | config merge | structural induction | proved, 9 theorems; refuted readings: nil_entry, http_over_service |
| C42 | graphite packing | loop invariant | proved, 4 theorems; refuted readings: single_line |
| C43 | counters and snapshots | conservation over sequential histories; refutation for the racy interleaving | proved, 5 theorems; refuted readings: lost, full_bus, kind_clash |
| C44 | agent status file | refutation (the code always saves 200) and the half that holds | proved, 6 theorems; refuted readings: unavailable, overlap |
| C45 | export/unexport keys | refutation and conditions under which it holds | proved, 3 theorems; refuted readings: unexport, suffix, stale, no_retry |
| C46 | zk registry recovery | refutation and conditions under which it holds | proved, 3 theorems; refuted readings: available_all, unregister, unregister_down, dropped, shared_node, agent_unregister, agent_available |
| C47 | rate limit | token bucket is an external library (`juju/ratelimit`); only the filter's own decisions can be modelled | proved, 9 theorems; refuted readings: service_window, refused_is_charged |
| C48 | `findCluster` | case analysis | proved, 3 theorems; refuted readings: single, twice |
| C49 | `TrimSplit`, `SlicesUnique` | list induction | proved, 7 theorems |
| C50 | shuffles | permutation by induction over draws | proved, 1 theorem |
| C51 | `ReadV1Message` on byte streams | inversion and round-trip of the two-level frame | proved, 4 theorems |
| C52 | motan1 request/response parsers with explicit panic result | case analysis of every read; panics characterised exactly | proved, 2 theorems; refuted readings: panic |
| C53 | motan1 heartbeat and exception builders | composition with the decoders | proved, 5 theorems; refuted readings: empty_message |
| C54 | request/response conversion and gzip | composition of C03 and C10 with gzip as an oracle | proved, 3 theorems |
| C55 | weighted round robin selectors | loop lemmas over availability histories | proved, 1 theorem; refuted readings: window_nil |
| C56 | weight refresh | range invariant over refreshes | proved, 2 theorems |
| C57 | `GetDirectEnvRegistry` | list lemmas over the table | proved, 2 theorems; refuted readings: overlap |
| C58 | `ParseExportInfo` | case analysis of the split text | proved, 3 theorems; refuted readings: three_parts |
| C59 | switcher commands with the global map of old values | invariant over command histories | proved, 3 theorems; refuted readings: shared_map |
| C60 | circuit breaker around an oracle for hystrix | case analysis of the outcomes | proved, 5 theorems; refuted readings: exception_preserved, overflow |
| C61 | metrics filters and counter keys | counting over call histories | proved, 6 theorems; refuted readings: methods, items, nil_response |
| C62 | timers of streams (model of C27) | invariant over all interleavings | proved, 2 theorems; refuted readings: early_timeout |
| C63 | `Call` of the endpoint around pool and channel | case analysis of outcomes | proved, 7 theorems; refuted readings: attempts_group |
| C64 | attachments to headers | list lemmas | proved, 6 theorems |
| C65 | form encoding of a map argument | round trip through the query parser | proved, 1 theorem; refuted readings: names |
| C66 | typed getters of the configuration | case analysis of values | proved, 5 theorems; refuted readings: number_one, int64 |
| C67 | placeholder replacement | structural induction on the value tree | proved, 4 theorems; refuted readings: lists, two_patterns |
| C68 | `confToURL` and back | case analysis, round trip | proved, 5 theorems; refuted readings: lists, blank_port |
| C69 | filter sets | set lemmas for every map order | proved, 2 theorems; refuted readings: disable |
| C70 | group suffixes and multiple groups | list induction over sections | proved, 4 theorems; refuted readings: numbered, sub_clash, stale_identity, renamed_identity |
| C71 | clusters of the agent and reloading | invariant over histories and interleavings | proved, 4 theorems; refuted readings: lost_subscription, leak, command_key |
| C72 | `fillDefaultReqInfo` | case analysis | proved, 3 theorems |
| C73 | dynamic configurer, snapshot file, crash points | invariant over histories with a crash at any step | proved, 5 theorems; refuted readings: crash_while_writing, revived |
| C74 | zk and direct `Discover` | list lemmas against the tree | proved, 10 theorems; refuted readings: bad_node |
| C75 | pooled messages of a proxying server, all goroutines | ownership invariant over all interleavings | proved, 4 theorems; refuted readings: retry |
| C76 | http proxy server, agent http call, mesh client fallback | case analysis of requests | proved, 14 theorems; refuted readings: own, form_group, mesh_body |
| C77 | clusters behind an http domain | invariant over all interleavings | proved, 4 theorems; refuted readings: leak |
| C78 | caches of services and groups with the refresh queue | invariant over all interleavings | proved, 7 theorems; refuted readings: old, clash, starved, groups_apart |
| C79 | meta values and the cache of other servers' meta | invariant over all interleavings and times | proved, 9 theorems; refuted readings: env_equals, shared, off |
| C80 | protobuf serializations | round trip with arbitrary suffix and arbitrary cut | proved, 10 theorems; refuted readings: int, slice, behind_slice, ptr_slice, merged, zeroed |
| C81 | client.go BuildRequest/BaseCall, motanEndpoint.go Call (conversion parts), provider.go DefaultProvider.Call, ProcessDeserializable, FirstUpper, composed with ConvModel, ProtoModel, ServerModel and SimpleModel | equality of the whole round trip with a specification of calling the method directly (ProvProps) | proved, 8 theorems; refuted readings: extra_arguments, argument_for_none, int_parameter, nil, reply_type |
| C82 | the mesh registry: initialization from the three runtime queries, register/unregister/subscribe with their locks and retry loop over the answers of the network, the agent as the set of identities it carried out, discovery | invariant over all calls (locks free, one entry per identity, the entry is the one the history gives), lemma on the retry loop, agreement with the agent under truthful answers, three refutations by witness | proved, 7 theorems; refuted readings: lost_answer, changed_parameters, port_zero |
| C83 | requests as objects in memory: arrays with capacity behind slices, maps behind pointers, the pool; acquire, convert, append, clone, release | invariant over all operations (references valid, maps unshared, arrays shared only within a family of clones); pool invariant for careful users; four refutations by witness | proved, 6 theorems; refuted readings: clone_arguments, clone_handlers, clone_attachment, clone_version |
| C84 | the extension factory: tables of constructors by kind and name, the registries made so far | lookup equals the last registration in the history (induction over calls); registry table equals the history's first successful request per identity | proved, 3 theorems; refuted readings: registry_parameters, blank_name, number_name |
| C85 | channels with capacity, results, the goroutine of each call as wait/send/done | invariant over all interleavings: what went through a channel is the subsequence of sends of its calls, no send twice, error equals the answer | proved, 3 theorems; refuted readings: unbuffered |
| C86 | HprovModel: Initialize, buildReqURL(X), buildQueryStr, url.ParseQuery/Encode, DoFormatURLQuery, DoProxy, DoTransparentProxy, Call of both providers; the http client is a function from request to reply, map orders a permutation | escape/parse round trip for query and form, induction over the configuration section, case analysis of the ways a call can end; refuted halves for every call without arguments etc. | proved, 11 theorems; refuted readings: no_arguments, other_methods, string, query_in_format, inner_names, httpx_id |
| C87 | RevModel: motanProvider Initialize/Call/IsAvailable/Destroy, metaProvider Call, localEndpoint and the table of local providers as a fold over registrations and references; the backend endpoint's availability is a parameter | parse/format round trip of the proxy parameter; induction over the list of operations; composition with the motan1 server model for the refuted half | proved, 6 theorems; refuted readings: motan1_unanswered, unset, destroy, meta_motan1, local_shared |
| C88 | LogModel: the writer (Write, Rotate, Close, openNew, openExistingOrNew), the names of backups, the cleaning split into its decision and one step per file, restarts; the directory is a map from names to contents, each system call may fail; gzip, time.Format/Parse and the zone's offset are parameters | invariant over the list of operations (stream equation, sizes, retrievability of every file moved aside); functional correctness of the cleaning against a declarative spec; refuted halves by general runs | proved, 10 theorems; refuted readings: same_hour, hourly_and_size, stat, age, zone |
| C89 | AccModel: the record built for a call, its line, when the two filters and the two server paths ask for one, and the logger as a machine (pool, heap of records, channels, consumers, discard counter, mode changes); zap's encoding of the structured form and json are parameters | ownership invariant (every record in one place) by induction over the steps, stream equation for one consumer, drain by induction on the queue, split/join for lines | proved, 13 theorems; refuted readings: forge, bar, encode, second_async |
| C90 | readToken as a machine over the bytes (its flags as a record, each round a function), parseFromStat with fuel, including the panics of indexing | a grammar as inductive relations; runs over words and gaps for one direction, an invariant relating the bytes read so far to grammar prefixes for the other, size of the rest for termination, a printer for existence | proved, 5 theorems; refuted readings: cut_accepted, single_quotes, leading_variable |
| C91 | visitDirectives, visitLocation with the conditions and rewrites, composed with newRewriteRule of the http proxy; the yaml output is a list of locations | flattening of the nested directives, induction over the items of a location, the field splitting theorem of C40 for the rules | proved, 2 theorems; refuted readings: blank, https, panics, flag |
| C92 | NewTraceContext, newTrace and GetTraceContexts as steps at their reads and writes of the shared holder; the duration loops; the filter of a custom trace; the save and restore of the policy | invariants over all interleavings (sizes, a permutation of all holders' contents with the created traces, the holders already dumped); induction over spans and over nested runs | proved, 8 theorems; refuted readings: limit, overlap, policy_overlap |
| C93 | AddAsyncFilter, the consumer goroutine, callAsyncFilter and doAsyncFilters as steps over the queue, the filters' channels and the lock; the limiter's decisions and the map order are parameters of the steps | invariants over all interleavings (queue, per-filter shuffle of given and missed items, channel contents) | proved, 9 theorems; refuted readings: drains |
| C94 | CgiProvider.Call and ParseFastCgiResponse with buildQueryStr of C86; the FastCGI client, the map order and cgi.New are parameters | inversion of the environment's construction against a relation that determines every variable; round trip of printed answers by induction over the lines | proved, 7 theorems; refuted readings: status_lost, status_panics, cookies, arguments_lost, id_lost |
| C95 | filterForClient, filterForProvider and handleIfPanic as a function producing events and an outcome; tracer, recorder and the rest of the chain are parameters; nested hops and repeated attempts | case analysis of one call; induction over the hops | proved, 4 theorems; refuted readings: panic_masked, nil_response, retry_nested |
| C96 | the handler table, routing, permission and the handlers for status, debug, switchers, logs, meta, registry status, runtime and refers filters as a state machine over requests; permission, JSON and user handlers are parameters | induction over the request history; last setting wins as a specification | proved, 27 theorems; refuted readings: registry_status, invalid_rules, one_log_setting, client_calls, status_file |
| C97 | the two failback loops, one tick each | membership characterisation and absence of duplicates | proved, 2 theorems |
| C98 | SaveSnapshot and flushSnapshot as steps; one step per file written; map order is a parameter | induction over the saves, permutations of the maps' entries | proved, 3 theorems; refuted readings: shared_file |
| C99 | getSubscribeGroup, getBestGroup and parseRegistry as functions of the registry's answers, regular expression, measurements and map orders | case analysis, induction over the folds; the trimmed mean against a permutation specification | proved, 7 theorems; refuted readings: zero, unsubscribe |

## Findings worth a maintainer's attention

Proved as theorems (names in the table above); in words, the ones with the largest effect:

* An agent that was set unavailable comes back available after a restart: the status file always says 200 (C44).
* A service unexported at run time stays exported, its key differs from the one used on export (C45).
* ZooKeeper: services dropped, unregistered or made available around a session loss end up in the wrong state (C46).
* A worker pool that refuses a message leaves the caller without an answer (C31).
* An event counted while a snapshot is taken can get lost (C43); a histogram can exceed the size of a datagram (C42).
* A stale timer of a recycled stream makes a later call time out early (C62); a peer answering with an unknown id
  can hand an answer to another call (C27).
* Retrying a proxied motan2 request after its message was released mixes up calls (C75).
* Deserializing arbitrary bytes of the simple serialization can panic on unhashable map keys (C09).
* Mesh registry: a lost answer to an unregistration leaves a service listed that the agent no longer has, and it is
  never sent again (C82).
* A clone of a request shares the array of its arguments with a pooled object: a slow backup request can see the
  arguments of another call; attachments set on a clone of a proxied request are not sent (C83).
* Log rotation loses a backup when two rotations fall into one hour, also on the autumn's repeated hour (C88).
* Protobuf: slices of messages come back as one object repeated and swallow the arguments behind them (C80).
* Calls without arguments to an http provider panic; other methods than GET and POST lose their arguments (C86).
* A gRPC call without arguments panics; behind the agent the client is told only of a panic of the cluster (C114).
* An endpoint whose keepaliveInterval is 0 or negative never comes back once errors took it down; one whose connectRetryInterval is 0 or negative never comes up if its first connection fails (C115).
* An http request whose decoded path contains a newline (%0a) and that is sent as an RPC reaches the upstream with an empty path, since metadata with a newline are not encoded (C116)
* A server's accept loop never waits: while accepting fails, or a destroyed server has not signalled yet, it logs errors without bound (C118).
* With retries configured a call is not handled at most once: every attempt whose answer is lost, or on which the method fails, has been handled by its server (C119).
* A retry through an endpoint without a group carries the group of the endpoint tried before it, not the caller's (C63).
* With round robin, calls made at the same time share the counter: a call with as many attempts as endpoints can miss the only working endpoint; so can one at the wrap of the counter (C120).
* An endpoint that fails every second call, or answers heartbeats while its calls fail, or has errorCountThreshold <= 0, goes on being selected: failures have no bound (C122).
* Calls begun before the first failure of a dead endpoint is counted all go to it, whatever its threshold (C123).
* The backup requests of a call share its reply pointer: a late answer overwrites the variable after the call has returned, and the value in it need not be that of the response returned (C121).

Found while reading, outside the model: a send on a closed channel between weight refresh and shutdown
(`lb/weightedEpRefresher.go`); `retries = MaxInt64` never stops; a nil response of an endpoint is dereferenced in
backup requests, in `lastEndPointFilter` and in the tracing filter; `rateLimit: NaN` panics; `reloadClusters` reads
the subscriptions of the dynamic configurer without its lock; `Unsubscribe` of the ZooKeeper registry may block on
an unbuffered channel while holding its lock; the hourly rotation computes its sleep from a time read before the
rotation; a log named `a..-` makes the cleaning panic on a file `a.-`.

## Trusted base

* Coq's kernel (8.16.1) and the standard library.  `Print Assumptions` says "Closed under the global context" for
  every theorem: no axioms are used, not even those of the standard library.  No `Admitted`, no own axioms, no
  functors, no plugins.  (A listing of everything the compiled files load also shows the standard library's module-type
  fields `Coq.ssr.ssrunder.Under_rel.*`; `Lia`'s `ZifyBool` loads that file, no theorem here depends on it.)
* The reading of the Go code recorded in the model's citations, and of Go itself: integer wrapping, map and slice
  semantics, channel semantics, atomicity of the operations of `sync/atomic` and of sections under a mutex (data
  races on plain variables are modelled as single reads and writes where a model says so).
* The libraries below, which are not in `/repo`.  Where they are modelled, the model follows their published source;
  otherwise they are function parameters over which the theorems quantify, with contracts as explicit hypotheses.

| library | treatment |
|---------|-----------|
| `juju/ratelimit` | token bucket algorithm written out (RateModel) |
| `golang/protobuf` 1.3.2 | buffer primitives written out, messages an oracle with the round-trip contract `codec_ok` (PbModel) |
| `patrickmn/go-cache` | map with expiry (MetaModel) |
| `rcrowley/go-metrics` | registries and counters as atomic operations (CountModel), percentiles an oracle |
| `afex/hystrix-go` | outcome oracle (FilterModel) |
| `samuel/go-zookeeper` | tree of nodes with sessions (ZkModel) |
| `google.golang.org/grpc`, `weibreeze/breeze-go` | oracles; `metadata.New` written out (GrpcModel) |
| `buraksezer/consistent` | oracle returning a member (LbModel) |
| `panjf2000/ants`, `sync.Pool`, timers, `container/ring` | written out as part of the state machines |
| `fasthttp`, `net/http`, `url.ParseQuery`, `regexp`, `net`, `encoding/json`, YAML, `compress/gzip`, `sort.Sort`, `strconv.FormatFloat` | oracles |

## What is modelled and what is not

Modelled (citations in the files): core/{bytes,url,util,map,switcher,motan,globalContext}.go in the parts named by the
properties; protocol/motanProtocol.go, protocol/motan1Protocol.go; serialize/{simple,pb}.go; lb/*.go; ha/{failoverHA,
backupRequestHA}.go; core/ping.go; cluster/{motanCluster,RefersFilter,command,httpCluster}.go; filter/{failfast,rateLimit,
circuitBreaker,clusterCircuitBreaker,metrics,clusterMetrics,tracing}.go and the chain building; endpoint/{endpoint,
motanEndpoint,motanCommonEndpoint}.go; server/{server,motanserver,httpProxyServer}.go; agent.go, meshClient.go,
dynamicConfig.go in the parts named; registry/{zkRegistry,directRegistry,
meshRegistry}.go; config/config.go; http/httpProxy.go;
metrics/{metrics,graphite}.go; meta/meta.go; client.go; provider/{provider,httpProvider,httpxProvider,motanProvider,metaProvider,cgiProvider}.go; endpoint/localEndpoint.go; registry/localRegistry.go;
log/{rotate,rotate_notwin,log,level,bytes,filter}.go, core/debug.go and the traces of manageHandler.go, filter/{accessLog,clusterAccessLog}.go; core/globalContext.go's and default.go's extension factory; what later rows of the table name.

Of manageHandler.go all handlers are modelled but HotReload's reload itself (dynamicConfig rows) and the pprof pages; path cleaning of net/http's mux is left out.

Not modelled: the consul registry (every method is empty), the command line and yaml output of the nginx configuration tool, process
start-up and flags, signal handling, and all performance aspects (time spent, memory, garbage collection).  Real time is a
number given by the steps that read it; no claim is made about how long a step takes.

## Testing the theorems

`seeded/LOG.jsonl` has one line per wrong program tried: the definition edited, the edit, the claim it breaks, the
theorems that failed and the theorems tightened because of it.
