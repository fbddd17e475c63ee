# Formal model of nebula-common: design

All models are written by reading `/repo` (pinned source, never built or run). Paths are relative to
`/repo/src/common`. The development is in Rocq (Coq 8.16.1) under `rocq/theories`, logical name `Verif`.
`properties.jsonl` has the properties, `MANIFEST.json` the theorems for each, `seeded/LOG.jsonl` the wrong programs
the theorems were tried on.

## Layout

| file | content |
|---|---|
| `XModel.v` | executable Gallina functions, one per C++ function, each with a comment citing file and lines and stating every simplification; no proofs |
| `XSpec.v`, or a section at the head of `XProps.v` | the specification the theorems are stated against; it does not mention the model's helpers |
| `XProofs.v` | lemmas |
| `XProps.v` | the property theorems `Cnn_...`, beside each an `Example` with a concrete case that meets the hypotheses, and `Print Assumptions` |

Names: `Cnn_..._refuted` exhibits a concrete input (or execution) for which the code as modelled violates the
property, `Cnn_..._partial` proves less than the property and its comment says what is missing. A property with a
refuted part has status "partial" in the manifest, and its other theorems state under which condition it holds.

## Conventions of the models

* Machine integers are `Z` with explicit wraps (`wrap64`, `wrap16`, `u64`, ...).
* `outcome`: `Ret v`, `Fatal` (failed `CHECK`, `LOG(FATAL)`, uncaught exception), `UB` (undefined behaviour of C++:
  signed overflow, index out of range, null dereference, division by zero, use of a dead object), `Diverge` (the fuel
  of a loop ran out; the theorems show that it does not, or that it does for every fuel).
* Strings are lists of bytes (`list Z`), so bytes above 127 and NUL can be represented.
* Hash maps and sets are association lists without duplicate keys; the order of the list is an iteration order, so a
  theorem about all lists is a theorem about all iteration orders.
* Concurrency: small-step relations, one step per critical section or atomic operation, arbitrary interleaving,
  any number of threads, sequentially consistent.
* `double` is `SpecFloat.spec_float` of the standard library (precision 53, exponent bound 1024, round to nearest
  even): plain Gallina, no axioms.
* Library code that is not modelled is a parameter of the theorem: `externals` (printing a double, `strtod`, `fmod`),
  `toDouble` (`folly::to<double>` in StatsManager), the environment of evaluation (`env`: variables, input columns,
  properties), the random draws, the clock readings, the answers of servers. Theorems hold for every such parameter.
* Heap objects that are shared or moved (Status, Cord, EitherOr) live in an explicit store; use after free, double
  free and leaks are observable.

## Trusted base

* The kernel of Coq 8.16.1 with its virtual machine (`vm_compute`).
* Axioms: none of our own. `Print Assumptions` stands beside the theorems in the `*Props*.v` files. It prints "Closed under the
  global context" for all of them but these: `C137_duration`, `C137_within`, `C137_monotone`, `C138_fast`,
  `C138_monotone`, `C138_ahead`, `C139_fast`, `C159_monotone`, `C159_within`, `C184_constants`. They reason
  about rounding with the real numbers (through Flocq's proofs about IEEE arithmetic, in `FloatReal.v` and `FloatReal32.v`), and rest on four axioms of the standard
  library: `ClassicalDedekindReals.sig_forall_dec`, `ClassicalDedekindReals.sig_not_dec`,
  `FunctionalExtensionality.functional_extensionality_dep` and `Classical_Prop.classic`. The statements of these theorems speak of integers and
  of the doubles of `SpecFloat` only, but for those of C159 and C184, which bound real numbers.
* Loading `lia` loads `Coq.ssr.ssrunder` of the standard library; a checker that
  lists everything in the loaded libraries reports the fields of its module type `Under_rel`, `Under_rel_from_rel`, `Under_relE`, `over_rel`,
  `over_rel_done`, `under_rel_done`, `Over_rel`. They belong to the standard library and no theorem here depends on them.
* The transcription. The definitions were written by hand from the C++ text. What is modelled is listed below,
  per module; the comments in the files cite the lines.
* Not modelled anywhere: memory exhaustion and `std::bad_alloc`, the C++ memory model beyond sequential consistency,
  the internals of thrift, folly, libevent, double-conversion and the C library, locales, logging, the network,
  clock hardware, the compiler. `char` is taken to be signed and the machine to be little endian (x86-64).

## What is modelled, and what is not

| module | C++ | left out or simplified |
|---|---|---|
| `DateModel` | `datatypes/Date.{h,cpp}`: `toInt`, `fromInt`, `operator+/-` | nothing |
| `TimeModel` | `time/TimeConversion.{h,cpp}`, `time/TimeUtils.h`: conversions, shifts, `validateDate`, local and UTC now | reading the clock and the time-zone data base (parameters) |
| `LruModel` | `base/ConcurrentLRUCache.h` | each public call is atomic (justified by C177 for the calls on a key) |
| `CordModel` | `base/Cord.{h,cpp}`, `base/ICord.h` | allocation failure; floating-point formatting |
| `StatusModel` | `base/Status.{h,cpp}` | formatting of the message arguments |
| `EitherModel` | `base/EitherOr.h`, `base/StatusOr.h` | the templates over types are one pair of payload types |
| `HashModel` | `base/MurmurHash2.h`, `MetaClient::partId` | nothing |
| `LatchModel` | `concurrent/Latch.cpp`, `Barrier.cpp` | spurious wake-ups are allowed steps |
| `WorkerModel` | `thread/GenericWorker.cpp`, `GenericThreadPool.cpp` | libevent: timers fire at any time after being armed |
| `CollectModel` | `base/CollectNSucceeded.inl`, `algorithm/ReservoirSampling.h` | folly futures as completion events; random draws are input |
| `ValueModel` | `datatypes/{Value,Vertex,Edge,Path,List,Map,Set,DataSet,Date}.{h,cpp}`: `==`, `<`, arithmetic, logic, conversions, `toString`, hash | printing and reading of doubles and `fmod` are parameters; `std::hash` of libstdc++ is MurmurHash2 |
| `GraphModel` | `Edge.cpp`, `Path.cpp`, `DataSet.h`: reverse, append, duplicates, merge | nothing |
| `ExprModel` | `expression/*.cpp`: trees, `writeTo`, `resetFrom`, `decode` | the serializer of a constant `Value` is a parameter (`vcodec`), instantiated by `WireModel` |
| `WireModel` | `datatypes/*Ops.inl` over the compact protocol (bytes written and read, skipping of unknown fields) | the protocol itself (fbthrift is not in the repository) follows its published format; field ids beyond 15 on writing do not occur; stack depth |
| `EvalModel` | `expression/*.cpp`: `eval` with the members that keep the last result | functions and the context are parameters; regular expressions abstract |
| `FuncModel`, `FuncTableModel` | `function/FunctionManager.cpp`: signatures, lookup, all bodies; `time/TimeUtils.{h,cpp}`: maps, parsing, timestamps | results of the math library, `std::get_time`, clock and random generator are parameters (`world`, `oracle`); the geo distance of `near` |
| `AggModel` | `function/AggFunctionManager.cpp`, `AggregateExpression` | nothing |
| `StatsModel` | `stats/StatsManager.cpp`: registration, metric names, reading | the numeric content of folly's time series; locks (every call is atomic) |
| `AssocModel` | `std::map`, `std::unordered_map` | |
| `LeaderModel` | `MetaClient` leader cache, `StorageClientBase::clusterIdsToHosts` | |
| `RespModel` | `StorageClientBase::collectResponse`, `StorageRpcResponse` | the payload of the responses is abstract |
| `RetryModel` | `MetaClient::getResponse`, `updateLeader`, `handleResponse` codes | time (delays are steps) |
| `DiffModel` | `MetaClient::diff`, `listenerDiff`, `doGetPartsMap`, `doGetListenersMap`, `reverse` | callbacks are recorded in a list |
| `SchemaModel` | `meta/NebulaSchemaProvider`, `SchemaProviderIf` iterator, `MetaClient::loadSchemas` and the name and id lookups | default-value expressions; TTL |
| `ClusterModel` | `clients/meta/FileBasedClusterIdMan.cpp` | a crash may happen between any two system calls |
| `DurationModel` | `time/Duration.{h,cpp}` | the conversion of ticks is in `ClockModel` |
| `PathModel`, `FsModel` | `fs/FileUtils.cpp`: `joinPath`, `dividePath`, `dirname`, `basename`, `remove`, `makeDir` | the file system is a tree, calls do not race with other processes; `..` is a plain name |
| `NetModel` | `network/NetworkUtils.cpp`: `intToIPv4`, `toHosts`, `toHostsStr` | `folly::to<int32_t>` and `folly::split` are transcribed from their documentation |
| `MetaCacheModel` | `MetaClient::loadData` with everything it calls, `heartbeat`, `isMetadReady`, `heartBeatThreadFunc`, lookups in the cache | one thread at a time (the name maps of indexes are read without a lock); RPCs give an answer or an error; configuration items |
| `ReplyModel` | `graph/Response.h`: `operator==`, `clear`; `graph/*Ops.inl`, `HostAddrOps.inl`, `KeyValueOps.inl`: `write`, `read` | compact protocol only; hash maps in a given order |
| `FullTextModel` | `plugin/fulltext`: `HttpClient::toString`, `DocIDTraits`, the commands and checks of `ESGraphAdapter` and `ESStorageAdapter`; `encryption/Base64.cpp`; use of `ProcessUtils::runCommand` | MD5, `folly::parseJson` and hash map order are parameters; no doubles in JSON; the pipe of `runCommand` |
| `RouterModel` | `webservice/Router.{h,cpp}` | handlers are numbers; templates with regular expression characters other than the dot are outside (`Diverge`); unknown HTTP methods and the check that the server has not started are left out |
| `DynModel` | folly::dynamic as used by `conf`, `meta/GflagsManager` | the JSON parser and conversions of doubles are parameters (`dynWorld`); a hash map is a list in the order it is iterated |
| `ConfModel` | `conf/Configuration.{h,cpp}` | texts of errors, dumping and errors of `read` are left out; an exception that leaves a function is `Fatal` |
| `GflagsModel` | `meta/GflagsManager.cpp`, `clients/meta/MetaClient.cpp` 2998-3005, 3107-3181 | the library gflags as a list of typed flags; hexadecimal numbers, doubles and validators are parameters (`gWorld`); the hash map of an answer is iterated in any order; `getGflagsModule` and locks are left out |
| `WebModel` | `webservice/SetFlagsHandler.cpp`, `GetFlagsHandler.cpp`, `GetStatsHandler.cpp`, `StatusHandler.cpp`, `WebService.cpp` 55-89, `stats/StatsManager.cpp` 207-444 | proxygen and the text of JSON answers are left out (a request is its method, parameters and body; doubles that are not finite make the printer throw); what a series yields is a parameter |
| `ClientManModel` | `thrift/ThriftClientManager.inl` 17-87 | the map of one thread; sockets and channels are a number with address, port, event base and options; whether a connection is good and what names resolve to is given with each call |
| `StoreReqModel` | `clients/storage/GraphStorageClient.cpp`, `GeneralStorageClient.cpp`, `StorageClientBase.inl` 296-363 | the requests each call makes and what becomes of the caller's items; fields copied alike into every request are one value; `DCHECK`s left out |
| `InternalModel` | `clients/storage/InternalStorageClient.cpp`, `StorageClientBase.inl` 222-292 | calls one after the other, with fuel for the unbounded retries; the network and what other users of the meta client do between attempts are given for each attempt; waiting and threads left out |
| `ProcModel` | `fs/FileUtils` (the iterator, `listAllTypedEntitiesInDir`), `process/ProcessUtils` (`isPidAvailable`, `makePidFile`, `runCommand`), `http/HttpClient`, `hdfs/HdfsCommandHelper` | the file system, the processes and the shell are functions or records of what they answer; patterns are functions; texts of statuses are left out |
| `SignalModel` | `base/SignalHandler.{h,cpp}` | signals arrive one after the other, also inside an install, but not inside a handler; handlers are names and return; texts left out |
| `FtCacheModel` | `clients/meta/MetaClient.cpp` (loading and looking up full-text indexes), `ServerBasedSchemaManager` getFTClients/getFTIndex | clients are names; the lookups one after the other; the order of the hash map is arbitrary |
| `HbModel` | `clients/meta/MetaClient.cpp` heartbeat: the cluster id, with C55's model of the file | other members of the request; heartbeats one after the other; options given with an id |
| `CacheQueryModel` | `clients/meta/MetaClient.cpp` checkPartExistInCache, checkSpaceExistInCache, getAllLatestVer{Tag,Edge}Schema | waiting to be ready, locks |
| `KvModel` | `clients/meta/MetaClient.cpp` key-value calls, defaults of fields, questions about spaces; `meta/Common.h` checkSegment | sending; errors have no text |
| `ZoneModel` | `charset/Charset.{h,cpp}`, `time/TimezoneInfo.{h,cpp}` | texts of statuses; boost's reading of zones and of the table is a parameter |
| `ClockModel` | `time/detail/TscHelper.{h,cpp}`, `time/WallClock.cpp`, `base/SlowOpTracker.h` | reading the counter and the clocks is an input; the three factors are set at once; logging |
| `CastModel` | `expression/TypeCastingExpression.cpp`: `validateTypeCast` (the cast itself is in `EvalModel`) | nothing |
| `UnionModel` | `datatypes/Value.{h,cpp}`: the type and the union, copy and move construction and assignment, the set and move functions, `clear`, `swap` | what is inside a container besides its Values is plain data; addresses are not used twice; `bad_alloc` only as the state it leaves |
| `ExprTextModel` | `expression/*`: `toString`, `rawString`, `TextSearchArgument::toString` | constants print as in `ValueModel`; the argument of a text search expression is separate from the tree |
| `AdminModel` | `clients/meta/MetaClient.cpp`: the 75 calls that send one request (jobs, spaces, schemas, indexes, users, balance, configuration, snapshots, listeners, zones, groups, statistics, full-text services, sessions), `toSpaceIdName`, `download`, `ingest` | structs of the caller's or server's making are opaque; sending and retrying are in `RetryModel`, the shell in `ProcModel` |
| `SizeModel` | `serializedSize`, `serializedSizeZC` of `datatypes/*Ops.inl` and `graph/*Ops.inl` | compact protocol only, the sizes of its parts from its description; `ExecutionResponse::serializedSize` (does not compile) |
| `MetaLockModel` | `clients/meta/MetaClient.{h,cpp}`: the locks taken and the shared members accessed by each function | transition system of one background thread and any number of others; what the functions compute is in the other models; `folly::RWSpinLock` by its description; `isRunning_`, `bgThread_` and the update times; start and stop |
| `PoolModel` | `base/ObjectPool.h` | transition system of any number of threads; appending to the list is two steps; `empty()` left out |
| `DefaultsModel` | `clients/meta/MetaClient.cpp` 191-300, 326-434, `MetaClient.h` 60-72, `meta/NebulaSchemaProvider.h` | only which expressions are made, owned and deleted; addresses are not reused |
| `MemModel` | `base/Memory.h`, `Memory.cpp` | single precision by `SpecFloat`; `FloatReal32` relates it to the reals |
| `NameModel` | `thread/NamedThread.h`, `NamedThread.cpp` | transition system of threads and forks; the kernel's 15-byte names; ids are not reused |
| `TempModel` | `fs/TempFile.*`, `fs/TempDir.*` | on the tree of `FsModel`; mkstemp and mkdtemp with given draws |
| `CloneModel` | `expression/*`: `operator==`, `clone` | the two trees are different objects; the order of comparisons inside a node is fixed |
| `StartModel` | `MetaClient::waitForMetadReady`, `stop` | an attempt answers anything; sequentially consistent memory; one waiting and one stopping thread |
| `WebStartModel` | `WebService::start`, `~WebService`, `router` | sequentially consistent memory; the server starts on two ports, fails, or its `bind` throws |
| `PortModel` | `NetworkUtils`: ports in use, dynamic range, available port, devices, `resolveHost` | the system calls and the random words are parameters; texts of errors left out; little-endian |
| `LruConcModel` | `base/ConcurrentLRUCache.h` with any number of threads | sequentially consistent memory; the calls of the LRU under a mutex are single steps (two for `putIfAbsent`) |
| `StatusTextModel` | the kinds of `Status` and `Status::toString` | codes outside the enum cannot be made |
| `HexModel` | `toHexStr` in `base/Base.cpp` | none |
| `ErrorOrModel` | `base/ErrorOr.h` | as `EitherModel` |
| `IndexManagerModel` | `meta/ServerBasedIndexManager.cpp` | as `MetaCacheModel` |
| `AskModel` | `MetaClient::getListenersByHostFromCache`, `getRelatedTagIDByIndexNameFromCache`, `getRelatedEdgeTypeByIndexNameFromCache` | the schema id of a tag index holds a tag id |

Not modelled at all: `process` (beyond the functions named above),
`session`, `thrift` (beyond the client manager), `version`, `webservice` (beyond the router, the start and the built-in handlers); `MetaClient` beyond the functions named above, the
meaning of the fields that the storage clients only copy.
## Properties

| id | title | status | file | proof |
|---|---|---|---|---|
| C01 | Date <-> integer round trip and monotonicity | proved | `DateProps` | closed form of the day number, month search by cases, `lia` |
| C02 | Adding days to a Date walks the calendar | proved | `DateProps` | closed form of the day number, month search by cases, `lia` |
| C03 | Date arithmetic uses the same calendar as date validation | partial | `TimeProps` | witness in a century year |
| C04 | Civil time <-> unix seconds are inverse and Gregorian | proved | `TimeProps` | Gregorian calendar specified second by second; loop invariants for the year and month searches |
| C05 | Shifting by a time-zone offset is invertible | proved | `TimeProps` | from C04; modular arithmetic for times of day |
| C06 | Local now equals UTC now plus the zone offset | partial | `TimeProps` | witness offset |
| C07 | Date validation accepts exactly the existing dates | partial | `TimeProps` | exact characterisation of the accepted set |
| C08 | Integer arithmetic never wraps silently | partial | `ValueProps` | case analysis over all pairs of constructors |
| C09 | Null and empty propagate through arithmetic | proved | `ValueProps` | case analysis over all pairs of constructors |
| C10 | Value equality is an equivalence | partial | `ValueProps` | induction over nested values |
| C11 | Value ordering is a strict weak order | partial | `ValueProps` | lexicographic products of strict weak orders, induction over nested values |
| C12 | Equal values hash equally | partial | `ValueProps` | induction; hash respects the equivalence |
| C13 | Three-valued comparison | partial | `ValueProps` | case analysis over all pairs of constructors |
| C14 | LRU cache never exceeds its capacity | proved | `LruProps` | refinement of map + list with iterators to a recency list, invariant over all operation sequences |
| C15 | LRU cache evicts the least recently used entry | proved | `LruProps` | refinement of map + list with iterators to a recency list, invariant over all operation sequences |
| C16 | LRU hit statistics are exact | proved | `LruProps` | refinement of map + list with iterators to a recency list, invariant over all operation sequences |
| C17 | Cord is an exact string builder | proved | `CordProps` | abstraction of the block chain to a byte string, induction on operations |
| C18 | ICord is an exact string builder | partial | `CordProps` | abstraction of the block chain to a byte string, induction on operations |
| C19 | Status carries its code and message | partial | `StatusProps` | simulation between the store of objects and the specification, no leak or double free |
| C20 | EitherOr / StatusOr holds exactly one alternative | proved | `EitherProps`, `ErrorOrProps` | simulation between the store of objects and the specification, no leak or double free |
| C21 | MurmurHash2 equals the reference hash | proved | `HashProps` | block-wise code against a specification over the number the message denotes, induction on 8-byte chunks |
| C22 | Every vertex id belongs to exactly one partition | proved | `HashProps` | modular arithmetic |
| C23 | Latch releases waiters exactly when the count reaches zero | proved | `LatchProps` | inductive invariants over all schedules |
| C24 | Barrier releases whole generations | proved | `LatchProps` | inductive invariants over all schedules |
| C25 | Worker runs tasks exactly once in FIFO order | proved | `WorkerProps` | inductive invariants over all schedules; explicit schedule for the refuted part; bit arithmetic |
| C26 | A purged timer stops firing | partial | `WorkerProps` | inductive invariants over all schedules; explicit schedule for the refuted part; bit arithmetic |
| C27 | Thread pool routes timer ids to the right worker | proved | `WorkerProps` | inductive invariants over all schedules; explicit schedule for the refuted part; bit arithmetic |
| C28 | collectNSucceeded completes at the right moment | proved | `CollectProps` | invariant over all completion orders / draws |
| C29 | Reservoir sampling keeps a genuine sample | partial | `CollectProps` | invariant over all completion orders / draws |
| C30 | Expression encode/decode round trip | partial | `ExprProps`, `WireProps` | readers undo writers, induction on trees with an arbitrary suffix |
| C31 | Column expression survives the wire | partial | `WireProps` | a varint inside eight bytes is smaller than the number they stand for |
| C32 | Logical operators implement three-valued logic | partial | `EvalProps` | the operand loops against logical specifications, list induction |
| C33 | Null/empty mixing in AND/OR is commutative | partial | `EvalProps` | the operand loops against logical specifications, list induction |
| C34 | Relational operators are consistent | partial | `RelProps` | comparison specified separately, cases |
| C35 | Subscript and slice semantics | proved | `EvalLoopProps` | list positions specified by `nth_error` |
| C36 | CASE evaluates the first matching branch | proved | `EvalLoopProps` | the operand loops against logical specifications, list induction |
| C37 | List predicates are the logical quantifiers | proved | `EvalLoopProps` | the operand loops against logical specifications, list induction |
| C38 | List comprehension and reduce are filter/map and fold | proved | `EvalLoopProps` | the operand loops against logical specifications, list induction |
| C39 | Evaluation depends only on the current row | partial | `MemoryProps` | two runs from different old results agree, induction on trees |
| C40 | lpad and rpad produce exactly the requested length | partial | `FuncProps` | fuel-indexed loops with invariants |
| C41 | left, right, substr return the documented slices | partial | `FuncProps` | fuel-indexed loops with invariants |
| C42 | range(start, end, step) is the arithmetic progression | partial | `FuncProps` | fuel-indexed loops with invariants |
| C43 | Aggregates are order-independent folds that skip null | partial | `AggFloatProps`, `AggProps` | fold lemmas; permutation invariance |
| C44 | Edge equality and hashing respect direction reversal | partial | `GraphProps` | structural |
| C45 | Edge ordering is consistent with edge equality | partial | `GraphProps` | structural |
| C46 | Path reversal and concatenation | partial | `GraphProps` | structural |
| C47 | DataSet stays rectangular | partial | `GraphProps` | structural |
| C48 | Stats counters have stable unique ids | partial | `StatsProps` | invariant over registrations; names parsed back |
| C49 | Storage requests are partitioned without loss | partial | `LeaderProps` | list induction; modular counters |
| C50 | Collected storage response is delivered exactly once and complete | proved | `RespProps` | small-step invariant, termination measure |
| C51 | Leader selection retries all replicas | partial | `LeaderProps` | list induction; modular counters |
| C52 | Metadata change notifications reproduce the new assignment | proved | `DiffProps` | difference of finite maps, replayed by a follower |
| C53 | Listener change notifications reproduce the new listeners | partial | `ListenerProps` | difference of finite maps, replayed by a follower |
| C54 | Schema layout is contiguous and addressable by name | partial | `SchemaProps` | invariant over added columns / loaded items |
| C55 | Cluster id survives crashes | partial | `ClusterProps` | crash points |
| C56 | Duration measures the un-paused time | proved | `DurationProps` | invariant over calls |
| C57 | Dotted IPv4 text is exact | proved | `NetProps` | decimal text lemmas |
| C58 | Path split and join are inverse | partial | `PathProps` | list lemmas on slashes |
| C59 | Meta RPC retries are bounded and answer once | partial | `RetryProps` | induction over attempts |
| C60 | Latest schema version is the maximum | partial | `SchemaLoadProps` | invariant over added columns / loaded items |
| C61 | A delayed task runs at most once | proved | `WorkerProps` | inductive invariants over all schedules; explicit schedule for the refuted part; bit arithmetic |
| C62 | Duplicate detection on paths is exact | proved | `GraphProps` | structural |
| C63 | split, replace and their delimiters | proved | `GraphFuncProps` | leftmost cutting as an inductive relation, unique |
| C64 | nodes and relationships of a path | proved | `GraphFuncProps` | list induction |
| C65 | head, last and tail of a list | partial | `GraphFuncProps` | list induction |
| C66 | keys of a vertex, edge or map | proved | `GraphFuncProps` | list induction |
| C67 | Endpoints of an edge | partial | `GraphFuncProps` | list induction |
| C68 | Reading a cell of a data set stays inside the data set | partial | `GraphFuncProps` | list induction |
| C69 | Every published metric can be read back | partial | `StatsProps`, `StatsRegProps`, `StatsTextProps` | invariant over registrations; names parsed back |
| C70 | Schema cache returns the schema of the requested version | partial | `SchemaLoadProps` | invariant over added columns / loaded items |
| C71 | Names and ids of tags and edges are mutually inverse | proved | `SchemaLoadProps` | invariant over added columns / loaded items |
| C72 | Host lists survive being written and read | partial | `HostTextProps`, `NetProps` | decimal text lemmas |
| C73 | dirname and basename name the directory and the last component | partial | `PathProps` | list lemmas on slashes |
| C74 | Removing a file or directory | partial | `FsProps` | induction on trees / on the length of the path |
| C75 | Making a directory | partial | `FsProps` | induction on trees / on the length of the path |
| C76 | A value arrives as it was sent | partial | `WireProps` | induction on sub-values, one lemma per writer |
| C77 | Reading a value from any bytes is safe | partial | `WireProps` | one relation between reading s and reading s ++ t, through all readers |
| C78 | A cut message is refused | proved | `WireProps` | from C76 and the relation of C77 |
| C79 | Expression equality decides sameness | partial | `CloneProps` | induction on the tree; evaluation is a congruence for pointwise equal sub-evaluations |
| C80 | A copy of an expression is the expression | partial | `CloneProps` | induction on the tree |
| C81 | Decoding an expression from any bytes is safe | partial | `DecodeProps` | one relation between decoding b and b ++ t, through all readers; bytes left bound the fuel |
| C82 | The declared type of a function is the type of its result | partial | `FuncTableProps` | one invariant per table entry, checked for all entries by case analysis |
| C83 | A function declared pure depends on its arguments only | partial | `FuncTableProps` | one invariant per table entry, checked for all entries by case analysis |
| C84 | Every accepted call returns | partial | `FromMapProps`, `FuncGuardProps`, `FuncTableProps` | one invariant per table entry, checked for all entries by case analysis |
| C85 | Dates and times from maps | proved | `FromMapProps` | the loop over the map computes an overlay of fields, for any order |
| C86 | Random numbers stay within their bounds | partial | `FromMapProps` | interval arithmetic; the calendar theorems of C04 and C05 |
| C87 | timestamp and datetime denote the same instant | partial | `FromMapProps` | interval arithmetic; the calendar theorems of C04 and C05 |
| C88 | Trimming and letter case | partial | `TextFuncProps` | list induction, letter case as a relation |
| C89 | A load takes over exactly what the meta server answered | proved | `MetaCacheProps` | inversion of a successful load; invariant over the loop on spaces; C52 for the notifications |
| C90 | A failed load leaves the cache alone | partial | `MetaCacheProps` | inversion of a successful load; invariant over the loop on spaces; C52 for the notifications |
| C91 | Indexes are found by name exactly when they exist | partial | `IndexManagerProps`, `MetaIndexProps` | inversion of a successful load; invariant over the loop on spaces; C52 for the notifications |
| C92 | After a load the leaders are those the hosts reported | partial | `MetaIndexProps` | inversion of a successful load; invariant over the loop on spaces; C52 for the notifications |
| C93 | Each part is told its remote listeners | partial | `MetaIndexProps` | inversion of a successful load; invariant over the loop on spaces; C52 for the notifications |
| C94 | Cached metadata catches up with the meta server | partial | `MetaSyncProps` | invariant: local time is the stamp of a version no piece of the cache is older than |
| C95 | Answers of the graph service arrive as sent | proved | `ReplyProps` | one lemma for structs given as lists of members, used for every struct; the relation of C77 through it |
| C96 | Any bytes can be read as an answer | proved | `ReplyProps`, `ReplyReqProps` | one lemma for structs given as lists of members, used for every struct; the relation of C77 through it |
| C97 | Members of newer peers are skipped | proved | `ReplyProps` | skip passes over every writer's bytes, mutual induction on the additional members |
| C98 | Responses are equal exactly if their members are | partial | `ReplyProps` | characterisation by permutations |
| C99 | A cleared response holds only what is read next | partial | `ReplyProps` | two readings that start in related objects stay related |
| C100 | A full-text search asks for what was searched | proved | `FullTextProps` | each quoting is undone by the step of the shell that reads it; the JSON printer is inverted by a reader; members up to permutation |
| C101 | Every document put or bulk-inserted reaches the server as given | partial | `FullTextProps` | each quoting is undone by the step of the shell that reads it; the JSON printer is inverted by a reader; members up to permutation |
| C102 | Index commands and credentials survive the shell | partial | `FullTextProps` | each quoting is undone by the step of the shell that reads it; the JSON printer is inverted by a reader; members up to permutation |
| C103 | Document identifiers tell documents apart | partial | `FullTextProps` | base64 inverted; fields of fixed width |
| C104 | The plugin reports what the server answered | partial | `FullTextProps` | induction over the hits, against paths into the answer |
| C105 | The first route registered for a request serves it | proved | `RouterProps` | the backtracking matcher is sound and complete for a relation; on instances the greedy group stops at the slash |
| C106 | A path template serves its instances only | partial | `RouterProps` | the backtracking matcher is sound and complete for a relation; on instances the greedy group stops at the slash |
| C107 | Parameters get the values from the path | partial | `RouterProps` | the backtracking matcher is sound and complete for a relation; on instances the greedy group stops at the slash |
| C108 | Configuration items are fetched in their own type | partial | `ConfProps` | list induction against membership in the object |
| C109 | Configuration arrays are fetched whole or not at all | partial | `ConfProps` | list induction against membership in the object |
| C110 | Comments in configuration files leave no trace | partial | `ConfProps` | induction over lines |
| C111 | Flags are declared to the meta server with the values they hold | partial | `GflagsProps` | texts and values related by an inductive relation |
| C112 | Flags follow the meta server | partial | `GflagsProps` | invariant over all loads: cached values are held by their flags; permutations of the answer |
| C113 | Nested options reach the listener once and as given | partial | `GflagsProps` | invariant over all loads: cached values are held by their flags; permutations of the answer |
| C114 | Setting flags over HTTP sets what it says | partial | `WebProps` | A flag is what gflags guarantees: a text that is the canonical text of a value (`holds`). Setting is described by a relation between the flags before and after (`assigned`), reading by what the entry's members are, so neither statement mentions the loops. |
| C115 | Flags are shown over HTTP as they are | partial | `WebProps` | A flag is what gflags guarantees: a text that is the canonical text of a value (`holds`). Setting is described by a relation between the flags before and after (`assigned`), reading by what the entry's members are, so neither statement mentions the loops. |
| C116 | Statistics are shown over HTTP as they are | partial | `WebStatsProps` | The handler reads a manager that some history of calls has produced; C48's invariant says every registered id can be read. Routes are compared through the path without its last slash. |
| C117 | Each built-in path of the web service has its handler | proved | `WebStatsProps` | The handler reads a manager that some history of calls has produced; C48's invariant says every registered id can be read. Routes are compared through the path without its last slash. |
| C118 | A client from the client manager leads to the host asked for, is alive, and is reused | partial | `ClientManProps` | Executions are lists of calls, each with the state of the network at its time; one inversion lemma says what a call can do, everything else is induction from the right. |
| C119 | The client manager holds one client for each host and event base, and replaces broken ones | partial | `ClientManProps` | Executions are lists of calls, each with the state of the network at its time; one inversion lemma says what a call can do, everything else is induction from the right. |
| C120 | A storage call sends every item once, to the leader of the part of its vertex | proved | `StoreReqProps` | One relation says how an item is sent (`sentAs`), one which part its vertex is in (`partOf`); the requests are described by what they hold for a host and a part, and by a permutation. |
| C121 | Storage calls leave the caller's items as they are | partial | `StoreReqProps` | One relation says how an item is sent (`sentAs`), one which part its vertex is in (`partOf`); the requests are described by what they hold for a host and a part, and by a permutation. |
| C122 | Single requests follow the vertex, lookups cover every part once | proved | `StoreReqProps` | One relation says how an item is sent (`sentAs`), one which part its vertex is in (`partOf`); the requests are described by what they hold for a host and a part, and by a permutation. |
| C123 | A forwarded transaction is retried until a leader answers, and the answer is reported | partial | `InternalProps` | The loop of retries has fuel and an ending of its own when it is used up, so that a call that never ends is one that is `Going` for every fuel. Answers and interference are functions of the attempt's number. |
| C124 | Reading a value asks the leader of the part in which the key is | partial | `InternalProps` | The loop of retries has fuel and an ending of its own when it is used up, so that a call that never ends is one that is `Going` for every fuel. Answers and interference are functions of the attempt's number. |
| C125 | Iterating a path gives its lines or entries that match, in order, and ends | partial | `ProcProps` | Lines are a relation between bytes and lists (`fileLines`), shown to be a function; what a path stands for is a relation too (`resolves`). The iterator's loop is then compared with one `flat_map`. |
| C126 | Listing a directory does not depend on what the file system tells with the entries | proved | `ProcProps` | Lines are a relation between bytes and lists (`fileLines`), shown to be a function; what a path stands for is a relation too (`resolves`). The iterator's loop is then compared with one `flat_map`. |
| C127 | A pid file is free exactly if it names no other running process, and keeps daemons single | partial | `ProcProps` | The first number of a text and its value are relations (`firstNum`, `denotes`). The daemons are a transition system over the real check and the real text of the file; the invariant is that the file names the daemon. |
| C128 | Commands are run with the arguments given, and their failure is reported | partial | `CommandProps` | The commands are given to the shell of C101's specification; the output to a loop over buffers of any size. |
| C129 | Every signal that is handled reaches its handler once, and fatal ones end the process | partial | `SignalProps` | A history is a list of installs and arrivals; who owns a signal is read off the history, and one invariant relates this to the process's tables. |
| C130 | Full-text index lookups answer with the indexes last told by the meta service | partial | `FtCacheProps` | Calls are a list; the specification reads off it what was told last and which missing names were asked for since, and one invariant says the cache is those two. |
| C131 | A storage host belongs to one cluster for ever | proved | `HbProps` | The disk is part of the state, a crash may leave any state that writing can pass through; the invariant is that memory, file and all ids sent agree. |
| C132 | Hosts are told exactly the parts they serve, and all latest schemas are the newest ones | proved | `CacheQueryProps` | `reverse` is a relation between parts and hosts (C52's lemma), so each answer is read off the assignment; the latest schemas use C70's invariant of the vectors. |
| C133 | Key-value calls of clients stay inside their segment and ask for what was said | partial | `KvProps` | Each call is an iff between the request sent (or answer given) and a condition on its arguments alone; keys are told apart by cutting at the fixed width. |
| C134 | Questions about a space are answered from its description, and only when it fits | partial | `KvProps` | Each call is an iff between the request sent (or answer given) and a condition on its arguments alone; keys are told apart by cutting at the fixed width. |
| C135 | The tables of character sets agree with each other | proved | `ZoneProps` | The tables are decided by cases on names; for the zone the specification says which row counts, and success and the state after are both read off it. |
| C136 | The global time zone is the one asked for, or it stays | partial | `ZoneProps` | The tables are decided by cases on names; for the zone the specification says which row counts, and success and the state after are both read off it. |
| C137 | Ticks are converted to time with a bounded error, and in order | partial | `ClockProps` | Doubles are SpecFloat's; each operation is shown to be the rounding of the real one (Flocq), the relative errors are added up over the five operations, and the result is stated with integers. Monotonicity: rounding, multiplying with a positive factor and cutting off are each monotone. |
| C138 | The fast clock follows the wall clock and does not go back | partial | `ClockProps` | Doubles are SpecFloat's; each operation is shown to be the rounding of the real one (Flocq), the relative errors are added up over the five operations, and the result is stated with integers. Monotonicity: rounding, multiplying with a positive factor and cutting off are each monotone. |
| C139 | An operation is slow exactly if it takes longer than the threshold | partial | `ClockProps` | Doubles are SpecFloat's; each operation is shown to be the rounding of the real one (Flocq), the relative errors are added up over the five operations, and the result is stated with integers. Monotonicity: rounding, multiplying with a positive factor and cutting off are each monotone. |
| C140 | The text operators say what they say, and their negations the opposite | proved | `OperatorProps` | Each operator is an iff with a definition of its relation on lists of bytes; IN is compared with = of the same language through a three-valued disjunction. |
| C141 | IN is equality with one of the members | partial | `OperatorProps` | Each operator is an iff with a definition of its relation on lists of bytes; IN is compared with = of the same language through a three-valued disjunction. |
| C142 | A path built from items is a walk along its edges | partial | `BuildProps` | The fold over items keeps a partial path; its state is related to the walk so far by induction from the left, and the condition checked is compared with the walk along the edges. |
| C143 | List, set and map literals hold their items | partial | `BuildProps` | Evaluation of a list of expressions is a relation that threads the context; sets and maps are folds with an invariant on what has been inserted. |
| C144 | ++ and -- change one variable by one | partial | `BuildProps` | Evaluation of a list of expressions is a relation that threads the context; sets and maps are folds with an invariant on what has been inserted. |
| C145 | A cast gives the type asked for, and the value meant | partial | `CastProps` | A numeral is blanks, sign and digits with the value of the digits; what strtoll consumes is cut in these pieces, which are unique. Floats are compared through their value in units of 2^-1074. Validation and evaluation are compared by cases on the type. |
| C146 | Values are independent of each other | proved | `UnionProps` | A Value in memory represents a tree with an exact footprint, its set of blocks (in the way of separation logic). A place inside a tree comes with the footprint around it, so that something else with another footprint can be put there; two places apart do not disturb each other. Each operation is a few writes, compared with the replacement in the tree; the rest is induction over the program. |
| C147 | No memory of a Value is lost or shared | proved | `UnionProps` | A Value in memory represents a tree with an exact footprint, its set of blocks (in the way of separation logic). A place inside a tree comes with the footprint around it, so that something else with another footprint can be put there; two places apart do not disturb each other. Each operation is a few writes, compared with the replacement in the tree; the rest is induction over the program. |
| C148 | A Value can be assigned a part of itself, and a part the whole | partial | `UnionProps` | The same predicates: the block of the part is in the footprint of the whole and gone after clear(); a copy reaches the half-made Value whatever stands before it. |
| C149 | Every complete expression prints | partial | `ExprTextProps` | Returning is pushed through the binds: a node returns iff its shown sub-expressions do and its shape fits. Induction over the tree. |
| C150 | Equal expressions and copies print alike | partial | `ExprTextProps` | Printing commutes with erasing what operator== does not look at. |
| C151 | The text of an expression tells the expression | partial | `ExprTextProps` | A fuelled reader with suffixes handled after each operand; in continuation style: reading the text of e followed by rest is going on with e and rest, if rest does not continue a token. Two trees with one text are read as one. |
| C152 | A call of the meta client asks for what it was told | partial | `AdminProps` | A reader over the interface that looks fields up by name; reading what a call sends gives the call. Types by a computed check that is proved sound. |
| C153 | A call of the meta client answers what the server said | proved | `AdminProps` | The interface says which single field a response holds; the answer of every call is compared with it, then composed with C59. |
| C154 | Loading data through the meta service | partial | `AdminProps` | Reading the output of the command to its end (C128), and cutting the URL at ?, & and =. |
| C155 | The size announced for a value is enough for it | proved | `SizeProps` | A relation between a text and a size (length <= size <= 10 length) that is closed under concatenation; induction over the value, member by member for answers. |
| C156 | The size announced for an answer is enough for it | proved | `SizeProps` | A relation between a text and a size (length <= size <= 10 length) that is closed under concatenation; induction over the value, member by member for answers. |
| C157 | What is given to a pool is deleted once | partial | `PoolProps` | A log of who added what, kept as an existential invariant; the lock makes reading and writing back one step. A measure bounds the number of steps. |
| C158 | The default values of a schema can be used as long as the schema is held | partial | `DefaultsProps` | Every load makes a fresh interval of addresses; the live ones are those of the pools in place. |
| C159 | The memory mark is hit at the given part of the memory | partial | `MemProps` | Integer division for the kilobytes; three relative rounding errors for the comparison. |
| C160 | A thread has the name it was given, and its own id | partial | `NameProps` | A thread's part of any execution is the run of its own operations; what does not touch a Nominator keeps its saved name. |
| C161 | A temporary file is new, and gone at the end | partial | `TempProps` | Creation and removal as changes of the tree at one path, compared at every other path. |
| C162 | The locks of the meta client never block each other | partial | `MetaLockProps` | Locks are ranked; every function takes them in rising rank or takes again for reading what it reads (checked for each function in continuation-passing style). Of the waiting threads, one waits for the lock of highest rank, whose holder can go on. |
| C163 | What the threads of the meta client share is not accessed while it is written | partial | `MetaLockProps` | Lockset discipline: each member has a lock, or is written by the background thread alone; with the exclusion invariant of the locks. |
| C164 | Sizes agree with what was counted | proved | `FuncLawProps` | Lengths of lists through map, rev, app; the alternating list of a path. |
| C165 | coalesce, reverse and udf_is_in pick the right members | proved | `FuncLawProps` | First member in a list as a split; rev_involutive; existsb against the IN evaluation. |
| C166 | bit_and, bit_or, bit_xor, sign and abs | proved | `FuncLawProps` | Bits of two's complement integers are constant from bit 63 on; case analysis of floats. |
| C167 | cos_similarity does not depend on the order of the vectors | proved | `FuncLawProps` | Multiplication of binary64 is commutative, so the three sums swap places; one induction on the pairs. |
| C168 | properties, keys, tags and labels agree | proved | `FuncLawProps` | insertAll keeps what is there: an invariant over the tags; strictly sorted lists with the same members are equal. |
| C169 | Numbers and truth values survive being written as text | proved | `FuncLawProps` | The decimal numeral of an integer is read back by strtoll and has no point. |
| C170 | Waiting for the meta server ends as asked, and can be stopped | partial | `StartProps` | A transition system of three threads with a log of the attempts; invariants per place in the code; the executions that go wrong are given step by step. |
| C171 | The cache answers only when it is ready | partial | `ReadyProps` | Every assignment to ready_, by cases of the round; induction on the rounds. |
| C172 | Starting the web service | partial | `WebStartProps` | Invariant over the two program counters, the lock and the life of the frame; a measure for termination; the same system with the notification inside the lock as the positive counterpart. |
| C173 | An available port is free, and so is the next one | partial | `PortProps` | The pattern on a line of the table by splitting at the first colons; induction on the lines and files; induction on the draws. |
| C174 | Network devices and host names lead to their IPv4 addresses | partial | `PortProps` | Induction on the list of interfaces with the map so far; the byte order by arithmetic and C57. |
| C175 | Arithmetic may be rewritten by the laws of arithmetic | partial | `OpLawProps` | Commutativity and sign symmetry of the rounding in SpecFloat by cases; integers by `lia`. |
| C176 | Conditions may be rewritten by the laws of logic | partial | `OpLawProps` | The loop over the operands commutes with negation; a nested loop contributes what it would have done in place. |
| C177 | Concurrent calls of the LRU cache behave as if made one after the other | partial | `LruConcProps` | The locks and the places of the threads determine each other; every bucket is that of the sequential run of the effects so far, up to the half-done putIfAbsent of the holder. |
| C178 | The text of a status tells its kind and its message | partial | `StatusTextProps` | The refinement of C19 with codes restricted to those of the kinds; no label is the beginning of another. |
| C179 | The hexadecimal text of bytes tells the bytes | proved | `HexProps` | All 256 entries compared by computation, then induction on the bytes. |
| C180 | + and - of texts, lists and dates join, append and count days | partial | `SumProps` | The evaluation of an arithmetic node reduced to the operator on values; dates through the numbering of C01. |
| C181 | Reading a member with a dot or in brackets finds the one named | partial | `MemberProps` | Members as an inductive relation that knows nothing of lookups; lookups in lists with unique keys; the rest by cases. |
| C182 | Evaluation depends only on the variables an expression mentions and changes only those it sets | proved | `ScopeProps` | An invariant of the evaluation monad for what is kept, a relation between two runs for what is asked; loops add their variable to what is agreed on. |
| C183 | The text of a simple value tells which value it is | partial | `ValueTextProps` | Texts of fixed width as digits of a number; kinds told apart by the first character and by which of T, colon and dash occur. |
| C184 | The mathematical functions take integers as doubles and agree on what they leave out | partial | `ConstProps`, `MathFuncProps` | The shape of the double of any integer (sign, exponent at least -52) decides all comparisons with zero and kEpsilon; pi and e by series of fractions evaluated by the kernel. |
| C185 | What a host listens to and what an index is on is answered as reported | proved | `AskProps` | The collected map is the fold of a flat list of (space, part, listener) built from the cache; membership in it is traced back to the answers of the load. |
| C186 | Every complete expression whose operators meet no forbidden operand evaluates | proved | `FaultProps`, `FaultSoundProps` | A Hoare-style predicate on the evaluation monad (returns, with a postcondition, keeping an invariant of the variables), proved for each loop and node by induction, with what a sub-expression can give as the postcondition of evaluating it. |
| C187 | Evaluation gives only values that the types allow | proved | `SoundProps` | An invariant of the evaluation monad over variables and remembered results, with one preservation lemma for each operator, loop and node. |
| C188 | Functions give only values that the types allow | proved | `SoundFuncProps` | One lemma for each function body of the table (loops by induction), then for all entries of the table; with C187 for evaluation. |
| C189 | What evaluation gives arrives as it was | proved | `SoundWireProps` | Values as the types allow them (C187) meet the conditions of the wire format (C76), by induction over what is inside a value. |
| C190 | Aggregates give only values that the types allow | proved | `SoundAggProps` | An invariant of the accumulators, kept by the step of each aggregate, by induction over the rows. |
| C191 | Whatever bytes arrive, what is read from them is as the types allow | proved | `ReceiveProps` | A predicate on what each reader gives, kept by the loop over fields for any order of them; sizes are bounded by the number in the header; induction on the fuel for nesting. |
| C192 | An expression read from any bytes can be sent on | partial | `RelayProps` | What a decoded node has for members, with sizes bounded by the bytes taken, by induction on the fuel; these are the conditions of C30. |
| C193 | An expression read from any bytes fails only on the listed operands | proved | `ReceivedProps` | What is decoded is whole (C81) and its constants are as the types allow (C191), which leaves of the conditions of C186 those on operands. |

The conditions under which a "partial" property is proved, and what was refuted, are in the notes of `MANIFEST.json`.

## Defects of the code found on the way

The refuted theorems show, among others:

* Calendar: `Date` arithmetic treats century years as leap years, `validateDate` accepts day 0 (C03, C07).
* `INT64_MIN % -1` is undefined (C08); `==` on values is not transitive and not reflexive (tolerance, NaN; C10).
* Equal values may hash differently (1 and 1.0; C12); an edge and its reversal are equal and ordered (C45).
* `ICord` loses or duplicates data at a full block (C18); a `Status` message of 64 KiB is cut (C19).
* A purged timer can fire once more (C26).
* Decoding input and variable property expressions aborts (C30).
* An `XOR` without operands and an attribute expression on an edge return the result of an earlier row (C32, C39).
* An empty pad makes `lpad` loop for ever (C40); `range` overflows at the end of the integers (C42).
* `head`, `last` of an empty list and `dataSetRowCol` on a short row read outside the vector (C65, C68).
* Appending to a path without steps reads outside the vector (C46).
* A space without parts, or a part without replicas, divides by zero (C49, C51).
* `listenerDiff` reports a listener with changed peers as removed (C53).
* The cluster id file is removed before it is written (C55).
* `loadSchemas` writes behind the vector if versions are not sent newest first (C70).
* `remove` without the recursive flag removes directories of files (C74); IPv6 addresses cannot be read back (C72).
* A column expression never survives encoding (C31). Edge types are reduced to their sign on the wire, and a set can lose edges by that (C76).
* A set that holds a map ends the process that reads it; an edge read without type or ranking keeps indeterminate members; a time with a 16-bit hour is misread (C77).
* Expression equality ignores `distinct` and the type of a number, dereferences a missing version or argument, and never holds for text search (C79); `clone` of a text search forgets four members (C80).
* The expression decoder reads sizes outside the bytes it was given (C81).
* `strcasecmp` is declared to return a string (C82), `rand` is declared pure (C83), six functions have no signature and cannot be typed (C84).
* `rand32(max)` above 2^31 gives negative numbers (C86); `timestamp` of a text ignores the zone offset that `datetime` applies (C87).
* A failing `listHosts` is not noticed, since `loadData` tests `ret` (the previous status) and then takes the value (C90); a failed load has already replaced accounts (C90) and redirected the names of indexes, which are never removed (C91).
* `loadData` loads leaders with the name map of the previous load (C92) and remote listeners before the client is ready (C93): the first load learns neither.
* A change in the same millisecond as the previous one is never loaded (C94).
* `AuthResponse::operator==` compares the time zone name with itself; plan nodes compare without their output variable (C98). `AuthResponse::clear` keeps the time zone of the last login (C99).
* The full-text plugin puts user name and password unquoted, and index names unescaped, on a shell line (C102); an index name with a single quote escapes from a bulk request (C101).
* Values that agree in their first 256 bytes share a document identifier, and the cut can fall inside a UTF-8 character (C103). A failed search keeps the rows it added (C104).
* Path templates of the web service are searched, not matched: `/user/:id` serves `/admin/user/7/delete`; a template that ends in a slash serves nothing of its own; a dot stands for any character (C106, C107).
* A configuration that is JSON but no object is accepted, and then every question throws (C108). A failed array fetch leaves leading values behind (C109). `//` and `#` inside strings of a configuration file are taken for comments (C110).
* A mutable uint64 flag of 2^63 or more, or a nested flag whose text is JSON but no object, ends the process at start (C111). A null or a value of another kind from the meta server ends it later; a mutable flag changed in the process is never set back (C112).
* Nested options are told to RocksDB with double quotes around texts, and the flag's text becomes invalid JSON (C113).
* `PUT /flags` without a body dereferences a null pointer; with a JSON text, array, or a member that is null, an array or an object it ends the process (C114).
* `GET /flags?flags=nosuch&verbose=true` ends the process, and `format=json` does when a flag is infinite or NaN; a uint64 flag of 2^63 or more is shown negative (C115).
* The client manager looks clients up by the host's name but stores them under its resolved address: for hosts given by name every request opens a new connection, and a broken one under the address is never replaced (C118, C119). Timeout and protocol are not part of the key (C118).
* `getNeighbors` and `getProps` change the caller's rows through a `const_cast` in spaces with integer ids; calling again with them ends the process (C121).
* `InternalStorageClient::getValue` passes the id of the space to `partId` as number of parts, so it asks for another part than the key's; with `find("partid")` as condition every missing leader is a missing part (C124).
* `forwardTransaction` reports failed RPCs as E_UNKNOWN and missing parts as missing spaces, and retries without end while no leader is named (C123).
* The iterator over a link to something unreadable ends the process: the status of the recursive call is overwritten with OK (C125).
* `makePidFile` answers OK when nothing could be written, a pid file with a number beyond 32 bits throws, and checking and writing are not atomic (C127).
* `HttpClient` and `HdfsCommandHelper` build shell commands without escaping, and `runCommand` ignores the exit status (C128).
* `SignalHandler` calls the handler twice for SIGCHLD and for fatal signals, and a signal that arrives while its handler is being installed ends the process (C129).
* `getFTIndexByNameFromCache` inserts a default index for a name that is missing, under a read lock, and answers OK; `getFTIndexBySpaceSchemaFromCache` then reads a union member that was never set (C130).
* The default of a tag's field and that of an edge type with the same number share one key (C133).
* A failed `loadFromDb` of a region has already overwritten the global zone with a null pointer; `utcOffsetSecs` then dereferences it (C136).
* `TscHelper` cuts the rate off to whole ticks in a microsecond: at 1999.9 MHz the fast clock gains 1.6 s in an hour; and it reads the steady clock before the counter, so an interruption in between makes the clock jump back (C138) and short operations slow (C139). 49 ticks at 49 MHz are 0 microseconds (C137).
* `PathBuildExpression` does not check the source of the first edge, nor that a path behind a vertex starts there; an id behind an edge replaces the edge's destination (C142).
* `1 IN [1.0]` is true but `1 IN {1.0}` is false; `{} IN {1}` and a set literal with a map in it abort (C141, C143). `++` of a versioned variable is a wrong downcast (C144).
* The casts of integers, floats and dates to truth values are validated but always give bad type; the empty text is cast to 0; casting a NaN to an integer is undefined behaviour (C145).
* `Value::operator=` destroys the old value before it reads the new one: `v = v.getList()[0]` and `v = std::move(v.mutableList()[0])` use destroyed memory, `v.setList(v.getList())` too, and `v.mutableList()[0] = std::move(v)` leaks; type_ is set before the copy is made, so that a throwing `new` leaves a Value that cannot be destroyed (C148).
* `AttributeExpression::toString` casts a label to `ConstantExpression`; `LogicalExpression`, `CaseExpression` and `PredicateExpression` print through pointers that may be missing; an empty list prints as `]` (C149). `count(distinct x)` and `count(x)` are equal but print differently, and the copy of a text search expression prints differently (C150). `(INT)$x IS NULL`, `t.p`, `($x)`, `count($x)`, `$v.p` are each the text of two different expressions (C151).
* `MetaClient::listConfigs` never sets the field `space` of its request (C152). `MetaClient::download` puts its texts into a URL unescaped, and logs `result.value()` when the result is not ok, which is undefined behaviour; `ingest` does not (C154).
* `Cpp2Ops<ExecutionResponse>::serializedSize` passes `obj->spaceName`, `obj->errorMsg` and `obj->comment` themselves (pointers) to `serializedSizeBinary`; `serializedSizeZC` dereferences them. The first would not compile if it were instantiated (C156 is about the second).
* The announced size is a `uint32_t` that wraps: a value of 4 GiB may be announced as 0 bytes (C155).
* The default values of a schema belong to the pool of the space's cache: after the next completed load, `defaultValue()` of a schema that is still held points to a deleted expression (C158).
* `ObjectPool::add` of the same pointer twice deletes it twice; `clear()` runs destructors under its spin lock (C157). `hitsHighWatermark` compares in single precision (C159).
* `~TempDir` removes a relative path recursively: after a change of the working directory it removes another directory (C161). `thread::gettid` keeps the id of the parent after a fork (C160).
* Data races in `MetaClient` (C163): `tagNameIndexMap_` and `edgeNameIndexMap_` are written by every load and read by `get*IndexByNameFromCache` without a lock; `download` and `ingest` read `leader_` without `hostLock_`; `heartbeat` and `updateGflagsValue` use `listener_` without `listenerLock_`, so a listener may be called after `unRegisterListener` has returned. A listener that unregisters itself in a callback deadlocks (C162).
* `MetaClient::stop` racing with `waitForMetadReady` (C170): a null `bgThread_` is used if the stop falls between the check of `isRunning_` and
  `bgThread_->start()`; `stop` waits for ever if the worker is started between its `stop()` and `wait()`; a stop before `isRunning_ = true` is lost.
* `getTermFromCache` and `checkTagIndexed` answer from a cache that is not ready (C171).
* `WebService::start` notifies its stack-allocated condition variable after releasing the mutex: a caller that wakes in between returns and the variable is gone (C172).
* `WebService::start` called again after a failure answers OK; `~WebService` of a service never started (or whose `bind` threw) uses a null pointer (C172).
* `getAvailablePort` is undefined if the dynamic port range begins at 1024 or below (a usual setting) and answers port 0 if it begins at 1025; it never ends if no pair of ports is free (C173).
* `listDeviceAndIPv4s` uses a null pointer if an interface has no address, and keeps one address of a device with several, although `listIPv4s` is documented to list all (C174).
* Rewriting `x + c > d` to `x > d - c` changes the result when one side overflows: the overflow is null, the other side a truth value (C175); `NOT (e1 < e2)` and `e1 >= e2` differ for an edge and its reversal, and flattening a nested AND/OR changes the result when an empty operand meets a null (C176).
* `ConcurrentLRUCache::total/hits/evicts` read counters without the mutex under which other threads write them (a data race), and `clear` is not atomic: an entry stored during it may stay while a later one is gone (C177).
* The text of `Status::Error(m)` is `m` alone, so it can read as any other status or as `OK`; `ListenerNotFound` is the only label without colon and blank (C178). `ok()` of an empty `ErrorOr` is true, although it has no value (C20).
* `"a\0b" + 1` is `"a1"` (the text goes through `c_str()`), while `"a\0b" + "1"` keeps all of it; `[1] + null` is null; `date + n` wraps around at the last year and is undefined near 2^63 (C180).
* A property of an edge named with a leading underscore cannot be read: brackets give null, and the dot leaves the result of the previous evaluation; in a zone of 8 hours `time({hour: 12}).hour` is 4 (C181).
* The variable of a loop is stored in the common context: with `x = 1`, `x == 1 AND any(x IN [5] WHERE true)` is true and `any(x IN [5] WHERE true) AND x == 1` is false (C182).
* The microseconds of a date-time are printed without leading zeros (`Date.cpp` 108-116): 5 microseconds past the second prints as `.5`, and the texts do not sort like the date-times; those of a time are padded. `["a","b"]` is the text of a list of two texts and of a list of one; `{}` is that of the empty set and of the empty map (C183).
* `sqrt(-1)` is null but `log(-1)` is NaN; `sqrt(null)` is null but `hypot(null, 1)` and `pow(2, null)` are a bad type (C184).
* A listener reported for a part that is not among the parts of its space is missing from `getListenersByHostFromCache` though `getListenersBySpaceHostFromCache` has it (C185).
* `++$v{0}` casts a versioned variable to the wrong class, `exists(1)` takes a constant for an attribute expression, and `all()` made without a filter evaluates a null pointer (C186).
* `UUIDExpression::resetFrom` accepts an empty text, with which `writeTo` ends the process (`CHECK`); `SubscriptRangeExpression::resetFrom` accepts a range with neither end, which `writeTo` writes without the position that `resetFrom` reads (C192).
* Bytes of 13 to 40 characters are accepted by `Expression::decode` and end the process, or are undefined, when evaluated: among them `{} IN set`, a set with a map in it, `all()` without a filter, `exists(1)`, `count(1)` without aggregate data (C193).
