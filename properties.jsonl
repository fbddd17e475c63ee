{"id": "C01", "title": "Date <-> integer round trip and monotonicity", "statement": "Converting a valid Date to its integer day number and back yields the same Date, and the day numbers of two valid Dates are ordered exactly as the dates are ordered lexicographically by (year, month, day).", "quantifier": "every Date whose year fits int16, month is 1..12 and day exists in that month under the class's own leap rule", "why_tests_cant": "there are about 24 million dates and 5*10^14 ordered pairs; off-by-one errors at year, leap and sign boundaries hide between sampled dates", "anchors": ["src/common/datatypes/Date.cpp: Date::toInt, Date::fromInt, kDaysSoFar, kLeapDaysSoFar", "src/common/datatypes/Date.h: Date"]}
{"id": "C02", "title": "Adding days to a Date walks the calendar", "statement": "For a valid Date d and any day count n whose result stays inside the representable years, d+n is a valid Date, (d+n)-n = d, (d+n)+m = d+(n+m), and d+1 is the immediate calendar successor of d.", "quantifier": "every valid Date and all day counts that stay in range", "why_tests_cant": "an infinite family of pairs; a test checks a few month and year ends", "anchors": ["src/common/datatypes/Date.cpp: Date::operator+, Date::operator-, Date::fromInt"]}
{"id": "C03", "title": "Date arithmetic uses the same calendar as date validation", "statement": "A date obtained by adding days to a date accepted by the validator is again accepted by the validator, i.e. Date arithmetic and the leap-year rule used for validation and timestamp conversion agree.", "quantifier": "every valid date and day count", "why_tests_cant": "the two modules are tested separately; disagreement only appears on century years", "anchors": ["src/common/datatypes/Date.cpp: Date::fromInt", "src/common/time/TimeConversion.h: TimeConversion::isLeapYear", "src/common/time/TimeUtils.h: TimeUtils::validateDate"]}
{"id": "C04", "title": "Civil time <-> unix seconds are inverse and Gregorian", "statement": "Converting a valid date-time to seconds since the epoch and back is the identity; the conversion counts exactly the Gregorian seconds between the two date-times (before and after 1970), and unix seconds to date-time always yields a valid civil time.", "quantifier": "every valid date-time and every number of seconds whose year fits the field", "why_tests_cant": "infinite domain, negative times and century leap years are corner cases a sample misses", "anchors": ["src/common/time/TimeConversion.cpp: TimeConversion::dateTimeDiffSeconds, TimeConversion::unixSecondsToDateTime", "src/common/time/TimeConversion.h: TimeConversion::isLeapYear"]}
{"id": "C05", "title": "Shifting by a time-zone offset is invertible", "statement": "Shifting a date-time by +k seconds and then by -k seconds (or to UTC and back) returns the original; shifting a time of day is addition modulo one day.", "quantifier": "every valid date-time, time and offset whose result stays in the representable years", "why_tests_cant": "all offsets times all instants cannot be enumerated; carries across day, month and year ends interact", "anchors": ["src/common/time/TimeConversion.h: dateTimeShift, dateShift, timeShift", "src/common/time/TimeUtils.h: dateTimeToUTC, utcToDateTime"]}
{"id": "C06", "title": "Local now equals UTC now plus the zone offset", "statement": "The local date-time reported for an instant equals the UTC date-time of that instant shifted by the configured offset in the same direction as every other UTC-to-local conversion of the API.", "quantifier": "every instant and every configured offset", "why_tests_cant": "tests run in one zone (often UTC, offset 0) where the sign does not matter", "anchors": ["src/common/time/TimeUtils.h: TimeUtils::localDateTime, localDate, localTime, utcToDateTime"]}
{"id": "C07", "title": "Date validation accepts exactly the existing dates", "statement": "validateDate succeeds on a date exactly when its month is 1..12 and its day lies between 1 and the number of days of that month in the Gregorian calendar.", "quantifier": "every (year, month, day) field combination representable in the type", "why_tests_cant": "2^32 field combinations; tests use plausible dates only", "anchors": ["src/common/time/TimeUtils.h: TimeUtils::validateDate"]}
{"id": "C08", "title": "Integer arithmetic never wraps silently", "statement": "Adding, subtracting, multiplying, dividing, taking the remainder or negating 64-bit integer values yields the exact mathematical result when it is representable, an overflow null when it is not, and a division-by-zero null for a zero divisor; no input makes the operation undefined.", "quantifier": "every pair of 64-bit integers", "why_tests_cant": "2^128 operand pairs; the faulty pair may be a single one", "anchors": ["src/common/datatypes/Value.cpp: operator+, operator-, operator*, operator/, operator%, unary operator-"]}
{"id": "C09", "title": "Null and empty propagate through arithmetic", "statement": "When an operand of a binary arithmetic operator is null or empty the result is one of the operands: a null operand wins over empty, the left null wins over the right one, and a non-null non-empty result is never produced.", "quantifier": "all values on the other side", "why_tests_cant": "all type pairs and payloads", "anchors": ["src/common/datatypes/Value.cpp: operator+, operator-, operator*, operator/, operator%"]}
{"id": "C10", "title": "Value equality is an equivalence", "statement": "operator== on values is reflexive, symmetric and transitive.", "quantifier": "all values of all types, nested to any depth", "why_tests_cant": "recursive data; transitivity quantifies over triples and fails only near the tolerance of floating comparison", "anchors": ["src/common/datatypes/Value.cpp: operator==", "src/common/datatypes/List.h", "src/common/datatypes/Edge.cpp: Edge::operator==", "src/common/datatypes/Vertex.cpp"]}
{"id": "C11", "title": "Value ordering is a strict weak order", "statement": "operator< on values is irreflexive, asymmetric and transitive and its incomparability is transitive, so sorting with it is well defined.", "quantifier": "all values and triples of values", "why_tests_cant": "triples of recursive values; std::sort on an inconsistent order is undefined behaviour that rarely shows", "anchors": ["src/common/datatypes/Value.cpp: operator<"]}
{"id": "C12", "title": "Equal values hash equally", "statement": "Two values that compare equal have the same hash, so hash containers keyed by values find them.", "quantifier": "all pairs of hashable values", "why_tests_cant": "pairs of values of different numeric types or reversed edges are easily overlooked by tests", "anchors": ["src/common/datatypes/Value.cpp: std::hash<Value>, operator==", "src/common/datatypes/Edge.cpp: hash", "src/common/datatypes/Edge.h"]}
{"id": "C13", "title": "Three-valued comparison", "statement": "Value::equal and Value::lessThan return null exactly when an operand is null (or the types are incomparable as documented), otherwise agree with operator== / operator< on comparable values.", "quantifier": "all pairs of values", "why_tests_cant": "every type pair and payload", "anchors": ["src/common/datatypes/Value.cpp: Value::equal, Value::lessThan"]}
{"id": "C14", "title": "LRU cache never exceeds its capacity", "statement": "After any sequence of insert, putIfAbsent, get, evict and clear operations the number of cached entries is at most the configured capacity, and every cached key maps to the value last inserted for it.", "quantifier": "every capacity and every operation history in which a key is always sent to the same bucket (no hint, or a hint that depends only on the key)", "why_tests_cant": "histories are unbounded", "anchors": ["src/common/base/ConcurrentLRUCache.h: ConcurrentLRUCache, LRU"]}
{"id": "C15", "title": "LRU cache evicts the least recently used entry", "statement": "Each bucket behaves like an abstract recency list: get and insert make the key most recent, and an insert of a new key into a full bucket removes exactly the least recently used key and nothing else.", "quantifier": "every operation history", "why_tests_cant": "recency order depends on the whole history", "anchors": ["src/common/base/ConcurrentLRUCache.h: LRU::insert, LRU::get, LRU::evict"]}
{"id": "C16", "title": "LRU hit statistics are exact", "statement": "The reported total equals the number of get calls and the reported hits the number of successful get calls since the last clear.", "quantifier": "every operation history", "why_tests_cant": "histories are unbounded", "anchors": ["src/common/base/ConcurrentLRUCache.h: LRU::get, LRU::clear, ConcurrentLRUCache::total, hits"]}
{"id": "C17", "title": "Cord is an exact string builder", "statement": "After any sequence of writes of any sizes, size() equals the total number of bytes written, str() and appendTo() return exactly their concatenation, and applyTo() visits exactly these bytes in order.", "quantifier": "every sequence of writes, every block size", "why_tests_cant": "bugs appear only when write boundaries meet block boundaries", "anchors": ["src/common/base/Cord.cpp: Cord::write, Cord::appendTo, Cord::applyTo", "src/common/base/Cord.h"]}
{"id": "C18", "title": "ICord is an exact string builder", "statement": "The same contract as Cord for the inline variant: str(), appendTo(), applyTo() and << all expose exactly the bytes written, also after clear().", "quantifier": "every sequence of writes and clears, every power-of-two block size", "why_tests_cant": "a full last block and a cleared cord are boundary states sampled tests skip", "anchors": ["src/common/base/ICord.h: ICord"]}
{"id": "C19", "title": "Status carries its code and message", "statement": "A Status built with a code and message reports that code, that message and ok() exactly for the OK code; copying and moving preserve them and leave a moved-from Status OK.", "quantifier": "every code, every message", "why_tests_cant": "message lengths are unbounded and stored in 16 bits", "anchors": ["src/common/base/Status.h: Status", "src/common/base/Status.cpp"]}
{"id": "C20", "title": "EitherOr / StatusOr holds exactly one alternative", "statement": "After any sequence of constructions, assignments, moves and resets an EitherOr is in exactly one of the states void, left, right; it returns the last value stored on that side, a moved-from object is void, and copying leaves the source unchanged.", "quantifier": "every operation sequence over a finite set of objects", "why_tests_cant": "state-machine histories are unbounded; double destroy or missed destroy needs specific transitions", "anchors": ["src/common/base/EitherOr.h: EitherOr", "src/common/base/StatusOr.h: StatusOr"]}
{"id": "C21", "title": "MurmurHash2 equals the reference hash", "statement": "The hash of a byte string equals the 64-bit MurmurHash2 (64A) reference value over exactly its bytes; no byte beyond its length is read.", "quantifier": "every byte string of every length", "why_tests_cant": "tail handling has eight cases for every length", "anchors": ["src/common/base/MurmurHash2.h: MurmurHash2"]}
{"id": "C22", "title": "Every vertex id belongs to exactly one partition", "statement": "partId maps every vertex id to a partition in 1..numParts, deterministically, and 8-byte ids are placed by their integer value.", "quantifier": "every id and every positive number of partitions", "why_tests_cant": "2^64 integer ids and unbounded strings", "anchors": ["src/common/clients/meta/MetaClient.cpp: MetaClient::partId", "src/common/base/MurmurHash2.h"]}
{"id": "C23", "title": "Latch releases waiters exactly when the count reaches zero", "statement": "In every schedule, no wait() or downWait() returns before the initial number of downs has happened, after that every waiter can return, and any further down throws.", "quantifier": "every initial count, every number of threads and every interleaving", "why_tests_cant": "interleavings cannot be enumerated by tests", "anchors": ["src/common/concurrent/Latch.cpp: Latch", "src/common/concurrent/Latch.h"]}
{"id": "C24", "title": "Barrier releases whole generations", "statement": "In every schedule, no participant returns from its k-th wait before all participants of that generation arrived; the completion callback runs exactly once per generation before any of them is released; the barrier is reusable.", "quantifier": "every participant count, thread count and interleaving", "why_tests_cant": "needs all interleavings, including re-entry before slow waiters left", "anchors": ["src/common/concurrent/Barrier.cpp: Barrier::wait"]}
{"id": "C25", "title": "Worker runs tasks exactly once in FIFO order", "statement": "In every schedule, a task accepted by a running worker is executed at most once, tasks are executed in the order in which they were added, and all tasks added before stop() have been executed when the worker terminates.", "quantifier": "every number of client threads and every interleaving of add, notify, drain and stop", "why_tests_cant": "interleavings cannot be enumerated by tests", "anchors": ["src/common/thread/GenericWorker.h: addTask", "src/common/thread/GenericWorker.cpp: GenericWorker::onNotify, stop, loop"]}
{"id": "C26", "title": "A purged timer stops firing", "statement": "Once purgeTimerTask(id) has been called for a timer added earlier, the timer is not scheduled any more after the worker has processed its pending notifications.", "quantifier": "every interleaving of addRepeatTask, purgeTimerTask and the worker loop", "why_tests_cant": "the failing window is between two critical sections of one callback", "anchors": ["src/common/thread/GenericWorker.cpp: GenericWorker::onNotify, purgeTimerTask, purgeTimerInternal"]}
{"id": "C27", "title": "Thread pool routes timer ids to the right worker", "statement": "The id returned for a repeated task determines the worker that runs it and the worker-local id, so purging purges that timer and no other; ids handed out by a pool are pairwise distinct until 2^48 timers have been created on one worker.", "quantifier": "every pool size below 2^16 and every history", "why_tests_cant": "needs all worker indices and ids", "anchors": ["src/common/thread/GenericThreadPool.h: addRepeatTask", "src/common/thread/GenericThreadPool.cpp: purgeTimerTask", "src/common/thread/GenericWorker.h: nextTimerId, TIMER_ID_BITS, TIMER_ID_MASK"]}
{"id": "C28", "title": "collectNSucceeded completes at the right moment", "statement": "For every completion order the returned future completes exactly once: when the n-th evaluated-as-successful result arrives or, if fewer succeed, when all have completed; the results are those that arrived up to then.", "quantifier": "every list of outcomes, every n and every completion order", "why_tests_cant": "n! orders", "anchors": ["src/common/base/CollectNSucceeded.inl: collectNSucceeded"]}
{"id": "C29", "title": "Reservoir sampling keeps a genuine sample", "statement": "The reservoir never holds more than the requested number of samples, only offered elements, each offered position at most once, and every offered element has a chance of being kept and of being dropped as uniform sampling demands.", "quantifier": "every stream, every sequence of random draws", "why_tests_cant": "probabilistic behaviour and all random sequences", "anchors": ["src/common/algorithm/ReservoirSampling.h: ReservoirSampling::sampling"]}
{"id": "C30", "title": "Expression encode/decode round trip", "statement": "Decoding the encoding of an expression tree yields an equal tree and consumes exactly the encoded bytes, so trees can be concatenated and nested.", "quantifier": "every well-formed expression tree of the encodable kinds, every depth", "why_tests_cant": "infinitely many trees; optional sub-expressions multiply the layouts", "anchors": ["src/common/expression/Expression.cpp: Expression::encode, Expression::decode, Encoder, Decoder", "src/common/expression/*.cpp: writeTo, resetFrom"]}
{"id": "C31", "title": "Column expression survives the wire", "statement": "Decoding an encoded column expression yields the same column index.", "quantifier": "every column index", "why_tests_cant": "needs one test per expression kind and index; this kind has none", "anchors": ["src/common/expression/ColumnExpression.cpp: writeTo, resetFrom"]}
{"id": "C32", "title": "Logical operators implement three-valued logic", "statement": "AND, OR and XOR over any number of operands evaluate to the three-valued-logic result on booleans and null, yield a bad-type null for a non-boolean operand reached by the evaluation, and do not depend on the order of boolean/null operands; operands after a decisive one are not evaluated.", "quantifier": "every operand list of every length", "why_tests_cant": "operand lists are unbounded", "anchors": ["src/common/expression/LogicalExpression.cpp: evalAnd, evalOr, evalXor"]}
{"id": "C33", "title": "Null/empty mixing in AND/OR is commutative", "statement": "The result of AND and OR over null and empty operands does not depend on the operand order (null dominates empty).", "quantifier": "every operand list of nulls and empties", "why_tests_cant": "tests fix one order", "anchors": ["src/common/expression/LogicalExpression.cpp: evalAnd, evalOr"]}
{"id": "C34", "title": "Relational operators are consistent", "statement": "For comparable operands exactly one of <, ==, > is true, <= is the disjunction of < and ==, != is the negation of ==, and a null operand makes each of them null.", "quantifier": "all pairs of values", "why_tests_cant": "all type pairs and payloads", "anchors": ["src/common/expression/RelationalExpression.cpp: RelationalExpression::eval"]}
{"id": "C35", "title": "Subscript and slice semantics", "statement": "list[i] returns the element at i (from the end for negative i) and an out-of-range null otherwise; list[a..b] returns exactly the contiguous sub-list with clamped bounds; neither ever reads outside the list.", "quantifier": "every list, every 64-bit index and bound pair", "why_tests_cant": "2^128 bound pairs and unbounded lists", "anchors": ["src/common/expression/SubscriptExpression.cpp: SubscriptExpression::eval, SubscriptRangeExpression::eval"]}
{"id": "C36", "title": "CASE evaluates the first matching branch", "statement": "A CASE expression returns the value of the first branch whose condition matches, else the default, else null, and evaluates no later branch.", "quantifier": "every number of branches and all values", "why_tests_cant": "unbounded branch lists", "anchors": ["src/common/expression/CaseExpression.cpp: CaseExpression::eval"]}
{"id": "C37", "title": "List predicates are the logical quantifiers", "statement": "ALL, ANY, SINGLE and NONE over a list are true exactly when the filter is true for all, at least one, exactly one, no element, for filters that evaluate to booleans.", "quantifier": "every list of every length and every filter", "why_tests_cant": "unbounded lists", "anchors": ["src/common/expression/PredicateExpression.cpp: PredicateExpression::eval"]}
{"id": "C38", "title": "List comprehension and reduce are filter/map and fold", "statement": "A list comprehension returns the mapped images of exactly the elements whose filter is true, in order; reduce returns the left fold of the mapping over the list.", "quantifier": "every list and every filter, mapping and initial value", "why_tests_cant": "unbounded lists and arbitrary sub-expressions", "anchors": ["src/common/expression/ListComprehensionExpression.cpp: eval", "src/common/expression/ReduceExpression.cpp: eval"]}
{"id": "C39", "title": "Evaluation depends only on the current row", "statement": "Evaluating an attribute expression a second time gives a result that depends only on the current operands, not on earlier evaluations of the same expression object.", "quantifier": "every history of evaluations", "why_tests_cant": "history dependent; tests evaluate a fresh object once", "anchors": ["src/common/expression/AttributeExpression.cpp: AttributeExpression::eval"]}
{"id": "C40", "title": "lpad and rpad produce exactly the requested length", "statement": "lpad(s, n, pad) and rpad(s, n, pad) return a string of exactly n bytes made of the prefix of s and repeated pad, and always terminate.", "quantifier": "every string, size and pad", "why_tests_cant": "unbounded strings; non-termination needs the empty pad", "anchors": ["src/common/function/FunctionManager.cpp: lpad, rpad"]}
{"id": "C41", "title": "left, right, substr return the documented slices", "statement": "left/right/substr return exactly the documented contiguous part of the string for all integer arguments and an error null for negative ones; no argument is truncated.", "quantifier": "every string and all 64-bit arguments", "why_tests_cant": "2^64 arguments", "anchors": ["src/common/function/FunctionManager.cpp: left, right, substr"]}
{"id": "C42", "title": "range(start, end, step) is the arithmetic progression", "statement": "range returns exactly the integers start, start+step, ... not passing end, and is defined for all arguments with non-zero step.", "quantifier": "all 64-bit triples with non-zero step", "why_tests_cant": "2^192 triples; overflow only near the limits", "anchors": ["src/common/function/FunctionManager.cpp: range"]}
{"id": "C43", "title": "Aggregates are order-independent folds that skip null", "statement": "COUNT counts the non-null non-empty inputs; SUM, AVG, MAX, MIN, BIT_AND, BIT_OR, BIT_XOR ignore null and empty inputs; a bad-type null, once produced, is final; COLLECT returns the kept inputs in order, COLLECT_SET their distinct elements.", "quantifier": "every input sequence", "why_tests_cant": "unbounded sequences", "anchors": ["src/common/function/AggFunctionManager.cpp"]}
{"id": "C44", "title": "Edge equality and hashing respect direction reversal", "statement": "An edge equals its reversal, equal edges have equal normalised keys and hashes, reversing twice restores the edge, and formatting normalises the type to be positive.", "quantifier": "all edges", "why_tests_cant": "all ids, types, ranks and property maps", "anchors": ["src/common/datatypes/Edge.cpp: Edge::operator==, reverse, format", "src/common/datatypes/Edge.h: hash"]}
{"id": "C45", "title": "Edge ordering is consistent with edge equality", "statement": "Two equal edges are never ordered by operator<.", "quantifier": "all pairs of edges", "why_tests_cant": "the violation needs a reversed edge pair", "anchors": ["src/common/datatypes/Edge.cpp: Edge::operator<, Edge::operator=="]}
{"id": "C46", "title": "Path reversal and concatenation", "statement": "Reversing a path twice restores it, reversal preserves the multiset of vertices and edges, appending a path whose source is the destination of the first concatenates the vertex sequences, and appending any other path is refused without change.", "quantifier": "all paths of all lengths", "why_tests_cant": "unbounded paths", "anchors": ["src/common/datatypes/Path.cpp: Path::reverse, Path::append", "src/common/datatypes/Path.h"]}
{"id": "C47", "title": "DataSet stays rectangular", "statement": "Appending and merging keep every row as wide as the header, appending keeps rows in order, and a size mismatch is refused; after a merge the value under a column name is the one that was under it before.", "quantifier": "every sequence of appends and merges", "why_tests_cant": "unbounded tables", "anchors": ["src/common/datatypes/DataSet.h: DataSet::append, merge, emplace_back"]}
{"id": "C48", "title": "Stats counters have stable unique ids", "statement": "Registering the same name twice returns the same id, different names get different ids, time-series ids are positive, histogram ids negative, and each id addresses the counter it was issued for.", "quantifier": "every registration history", "why_tests_cant": "histories are unbounded", "anchors": ["src/common/stats/StatsManager.cpp: registerStats, registerHisto, addValue"]}
{"id": "C49", "title": "Storage requests are partitioned without loss", "statement": "Clustering ids to hosts places each id in exactly one (host, partition) group, the one of its own partition and that partition's leader, keeps multiplicity and order, and never invents ids.", "quantifier": "every id list, partition count and leader assignment", "why_tests_cant": "unbounded inputs", "anchors": ["src/common/clients/storage/StorageClientBase.inl: clusterIdsToHosts"]}
{"id": "C50", "title": "Collected storage response is delivered exactly once and complete", "statement": "In every schedule of the per-host callbacks and of the sending loop, the promise is fulfilled exactly once, after the sending loop finished and every host answered, and the result contains one entry per host.", "quantifier": "every host set and interleaving", "why_tests_cant": "interleavings cannot be enumerated", "anchors": ["src/common/clients/storage/StorageClientBase.inl: ResponseContext, collectResponse"]}
{"id": "C51", "title": "Leader selection retries all replicas", "statement": "After a leader is invalidated the next lookup returns another replica in round-robin order, so n successive invalidations visit all n replicas; an updated leader is returned until invalidated.", "quantifier": "every replica list and operation history", "why_tests_cant": "histories are unbounded", "anchors": ["src/common/clients/meta/MetaClient.cpp: getStorageLeaderFromCache, updateStorageLeader, invalidStorageLeader"]}
{"id": "C52", "title": "Metadata change notifications reproduce the new assignment", "statement": "Applying the notifications issued on a cache refresh to a mirror of the old assignment yields the new assignment: each added, updated or removed part is reported exactly once and unchanged parts are not reported.", "quantifier": "every pair of old and new assignments", "why_tests_cant": "pairs of maps are unbounded", "anchors": ["src/common/clients/meta/MetaClient.cpp: MetaClient::diff, doGetPartsMap"]}
{"id": "C53", "title": "Listener change notifications reproduce the new listeners", "statement": "Applying the listener notifications issued on a cache refresh to a mirror of the old listeners yields the new listeners.", "quantifier": "every pair of old and new listener maps", "why_tests_cant": "the failing case needs a peer change of an existing listener", "anchors": ["src/common/clients/meta/MetaClient.cpp: MetaClient::listenerDiff, doGetListenersMap", "src/common/meta/Common.h: ListenerHosts"]}
{"id": "C54", "title": "Schema layout is contiguous and addressable by name", "statement": "Fields of a schema occupy consecutive disjoint byte ranges covering exactly size() bytes, nullable fields have consecutive distinct null-flag positions, and lookup by name and by index agree.", "quantifier": "every sequence of added fields", "why_tests_cant": "unbounded sequences", "anchors": ["src/common/meta/NebulaSchemaProvider.cpp: addField, size, getFieldIndex, field"]}
{"id": "C55", "title": "Cluster id survives crashes", "statement": "After persisting a cluster id, reading returns it; a crash at any point during persisting leaves either the old or the new id readable.", "quantifier": "every id and every crash point", "why_tests_cant": "crash points between system calls are not reachable from tests", "anchors": ["src/common/clients/meta/FileBasedClusterIdMan.cpp: persistInFile, getClusterIdFromFile"]}
{"id": "C56", "title": "Duration measures the un-paused time", "statement": "The elapsed time is the total length of the intervals in which the stopwatch was running since the last reset, whatever the sequence of pause, resume and reset calls.", "quantifier": "every operation history with a monotone clock", "why_tests_cant": "histories are unbounded", "anchors": ["src/common/time/Duration.cpp: Duration"]}
{"id": "C57", "title": "Dotted IPv4 text is exact", "statement": "intToIPv4 renders every 32-bit address as its four decimal octets, most significant first, and distinct addresses have distinct texts.", "quantifier": "all 2^32 addresses", "why_tests_cant": "2^32 inputs, pairs for injectivity", "anchors": ["src/common/network/NetworkUtils.cpp: NetworkUtils::intToIPv4"]}
{"id": "C58", "title": "Path split and join are inverse", "statement": "Joining a directory and a file name and dividing the result returns the parts, for paths without embedded NUL and trailing separators as documented.", "quantifier": "all directory and file names", "why_tests_cant": "unbounded strings", "anchors": ["src/common/fs/FileUtils.cpp: FileUtils::joinPath, FileUtils::dividePath"]}
{"id": "C59", "title": "Meta RPC retries are bounded and answer once", "statement": "For every sequence of RPC outcomes a request is sent at most retryLimit+1 times, its promise is fulfilled exactly once, with the first success if one occurs within the limit and an error otherwise.", "quantifier": "every outcome sequence and limit", "why_tests_cant": "outcome sequences are unbounded", "anchors": ["src/common/clients/meta/MetaClient.cpp: MetaClient::getResponse, handleResponse"]}
{"id": "C60", "title": "Latest schema version is the maximum", "statement": "The latest version reported for a tag or edge is the maximum of the versions received from the meta service.", "quantifier": "every list of schema items in any order", "why_tests_cant": "depends on the order in which items arrive", "anchors": ["src/common/clients/meta/MetaClient.cpp: MetaClient::loadSchemas, getLatestTagVersionFromCache, getLatestEdgeVersionFromCache"]}
{"id": "C61", "title": "A delayed task runs at most once", "statement": "In every schedule a one-shot timer (addDelayTask, or addRepeatTask with interval 0) fires at most once, as long as fewer than 2^48 timers are created on the worker.", "quantifier": "every interleaving of timer additions, purges, notifications and timer expiries", "why_tests_cant": "Depends on the interleaving of the worker loop with an unbounded number of client calls.", "anchors": ["src/common/thread/GenericWorker.cpp: GenericWorker::onNotify, purgeTimerInternal", "src/common/thread/GenericWorker.h: addDelayTask, addTimerTask"]}
{"id": "C62", "title": "Duplicate detection on paths is exact", "statement": "hasDuplicateVertices answers false exactly when the vertex ids along the path are pairwise distinct, and hasDuplicateEdges answers false exactly when the direction-independent edge keys (source, destination, positive type, rank) are pairwise distinct.", "quantifier": "all paths of any length with integer or string ids and edge types above -2^31", "why_tests_cant": "Paths of unbounded length; a wrong normalisation shows only when the same edge is traversed in both directions.", "anchors": ["src/common/datatypes/Path.cpp: Path::hasDuplicateVertices, Path::hasDuplicateEdges"]}
{"id": "C63", "title": "split, replace and their delimiters", "statement": "Joining the pieces returned by split(s, d) with d gives back s and no piece contains d; replace(s, a, b) rewrites exactly the non-overlapping occurrences of a found from the left, and the text between them is unchanged.", "quantifier": "all byte strings s, a, b and all non-empty delimiters d", "why_tests_cant": "Strings and delimiters are unbounded; overlapping and adjacent occurrences, empty pieces and delimiters at the ends are the cases tests sample.", "anchors": ["src/common/function/FunctionManager.cpp: FunctionManager constructor (split, replace)"]}
{"id": "C64", "title": "nodes and relationships of a path", "statement": "For a path with k steps nodes() has k+1 vertices and relationships() k edges, and the i-th relationship connects the i-th and the (i+1)-th node, in the direction given by the sign of the step's type.", "quantifier": "all paths of any length, all step types", "why_tests_cant": "Unbounded paths; direction handling differs per step.", "anchors": ["src/common/function/FunctionManager.cpp: FunctionManager constructor (nodes, relationships, length)"]}
{"id": "C65", "title": "head, last and tail of a list", "statement": "For every list head is its first element, last its last and tail the rest, and head followed by tail is the list; on every list the functions are defined.", "quantifier": "all lists of any length and element types, including the empty one", "why_tests_cant": "Unbounded lists; undefined behaviour on the empty list need not show in a test.", "anchors": ["src/common/function/FunctionManager.cpp: FunctionManager constructor (head, last, tail)"]}
{"id": "C66", "title": "keys of a vertex, edge or map", "statement": "keys() returns the names of the properties, each exactly once, in ascending byte order: a name is in the result exactly if the vertex has it in some tag (or the edge or map has it).", "quantifier": "all vertices with any number of tags, all edges and maps", "why_tests_cant": "Any number of tags and properties, with the same name in several tags.", "anchors": ["src/common/function/FunctionManager.cpp: FunctionManager constructor (keys)"]}
{"id": "C67", "title": "Endpoints of an edge", "statement": "src() and dst() of an edge are the ids of the vertices returned by startNode() and endNode(), and reversing an edge does not change any of them.", "quantifier": "all edges with any ids and any type", "why_tests_cant": "All edge types, including negative types, 0 and the extremes of int32.", "anchors": ["src/common/function/FunctionManager.cpp: FunctionManager constructor (src, dst, startnode, endnode)", "src/common/datatypes/Edge.cpp: Edge::reverse"]}
{"id": "C68", "title": "Reading a cell of a data set stays inside the data set", "statement": "dataSetRowCol returns the addressed cell or a null and never accesses memory outside the data set's rows and columns.", "quantifier": "all data sets with any number of rows and row widths, all integer row indices, integer and string columns", "why_tests_cant": "Row widths and indices are unbounded; an out-of-bounds read is silent in a test.", "anchors": ["src/common/function/FunctionManager.cpp: FunctionManager constructor (dataSetRowCol)"]}
{"id": "C69", "title": "Every published metric can be read back", "statement": "Every metric name that readAllValue reports is accepted by readValue and gives the same statistic.", "quantifier": "all sequences of registrations, all counter names, ranges and percentiles", "why_tests_cant": "Counter names and percentiles are unbounded strings and numbers; parsing and printing have to agree on all of them.", "anchors": ["src/common/stats/StatsManager.cpp: StatsManager::readAllValue, readValue, parseStats, strToPct"]}
{"id": "C70", "title": "Schema cache returns the schema of the requested version", "statement": "After a refresh, looking up a tag or edge schema by version returns exactly the schema the meta server sent under that version, asking for a negative version returns the newest one, and asking for a version that was not sent returns nothing.", "quantifier": "all answers of the meta server: any number of tags and edges, any number of versions of each, any columns", "why_tests_cant": "The versions are packed in a vector indexed by version; whether every index is in range depends on the order of the items in the answer.", "anchors": ["src/common/clients/meta/MetaClient.cpp: MetaClient::loadSchemas, getTagSchemaFromCache, getEdgeSchemaFromCache", "src/common/meta/ServerBasedSchemaManager.cpp: getTagSchema, getEdgeSchema"]}
{"id": "C71", "title": "Names and ids of tags and edges are mutually inverse", "statement": "After a refresh the lookups tag name to id, edge name to type and edge type to name answer exactly the pairs the meta server sent, name and type lookups of edges are inverse to each other, and the list of all edges of a space has each edge name once.", "quantifier": "all answers of the meta server in which a name has one id and an id one name", "why_tests_cant": "Any number of spaces, tags, edges and versions; the maps are filled once per version.", "anchors": ["src/common/clients/meta/MetaClient.cpp: MetaClient::loadSchemas, getTagIDByNameFromCache, getEdgeTypeByNameFromCache, getEdgeNameByTypeFromCache, getAllEdgeFromCache"]}
{"id": "C72", "title": "Host lists survive being written and read", "statement": "Parsing the text that toHostsStr writes for a list of host addresses gives back the same list, and parsing never gives an address that is not in the text.", "quantifier": "all lists of host addresses with any host names and any 16-bit ports", "why_tests_cant": "Host names are arbitrary strings and lists are unbounded; separators may occur in names.", "anchors": ["src/common/network/NetworkUtils.cpp: NetworkUtils::toHosts, toHostsStr"]}
{"id": "C73", "title": "dirname and basename name the directory and the last component", "statement": "dirname(p) is the directory of p and basename(p) its last component, a slash at the end of p is ignored, and both agree with dividePath.", "quantifier": "all paths", "why_tests_cant": "Paths are unbounded strings of any bytes; the functions are regular expressions whose behaviour on line ends and repeated slashes is not obvious.", "anchors": ["src/common/fs/FileUtils.cpp: FileUtils::dirname, basename, dividePath"]}
{"id": "C74", "title": "Removing a file or directory", "statement": "remove returns true only if the path is gone, removes nothing outside it, without the recursive flag fails on a directory that is not empty, and a failing removal leaves the directory as it was.", "quantifier": "all directory trees of any depth and width and all sets of entries that cannot be removed", "why_tests_cant": "Directory trees are unbounded; failures in the middle of a recursive removal are not exercised by tests.", "anchors": ["src/common/fs/FileUtils.h:87-95", "src/common/fs/FileUtils.cpp: FileUtils::remove"]}
{"id": "C75", "title": "Making a directory", "statement": "makeDir ends for every path, returns true only if the path is then a directory, creates only missing directories on the way to it and leaves everything that exists as it was.", "quantifier": "all directory trees, all paths", "why_tests_cant": "The recursion over the parents ends only because the parent of a path is shorter; trees and paths are unbounded.", "anchors": ["src/common/fs/FileUtils.cpp: FileUtils::makeDir"]}
{"id": "C76", "title": "A value arrives as it was sent", "statement": "Reading the bytes written for a Value gives the same Value and consumes exactly those bytes, whatever follows.", "quantifier": "every value of every type, every nesting, every following bytes", "why_tests_cant": "Values nest without bound and the compact protocol has length-dependent layouts (short and long list headers, varints of one to ten bytes).", "anchors": ["src/common/datatypes/ValueOps.inl", "src/common/datatypes/DateOps.inl", "src/common/datatypes/VertexOps.inl", "src/common/datatypes/EdgeOps.inl", "src/common/datatypes/PathOps.inl", "src/common/datatypes/ListOps.inl", "src/common/datatypes/MapOps.inl", "src/common/datatypes/SetOps.inl", "src/common/datatypes/DataSetOps.inl"]}
{"id": "C77", "title": "Reading a value from any bytes is safe", "statement": "Reading a Value from arbitrary bytes ends, and either gives a value with all members set or refuses the bytes with an exception.", "quantifier": "every byte sequence", "why_tests_cant": "The bytes come from the network: there are infinitely many, and nested sizes interact with the skipping of unknown fields.", "anchors": ["src/common/datatypes/ValueOps.inl: Cpp2Ops<Value>::read", "src/common/datatypes/SetOps.inl", "src/common/datatypes/EdgeOps.inl", "src/common/datatypes/Value.cpp: hash"]}
{"id": "C78", "title": "A cut message is refused", "statement": "If the bytes of a value are cut anywhere, reading refuses them instead of giving another value; no encoding is the beginning of another.", "quantifier": "every value, every place to cut", "why_tests_cant": "One test per place and value shape; the claim is about all of them.", "anchors": ["src/common/datatypes/ValueOps.inl: Cpp2Ops<Value>::read, Cpp2Ops<Value>::write"]}
{"id": "C79", "title": "Expression equality decides sameness", "statement": "operator== of two expression trees is defined, and true exactly if they have the same structure, names and constants; equal trees evaluate to the same result in every context.", "quantifier": "all expression trees of all kinds, all constants, all evaluation contexts", "why_tests_cant": "Trees are unbounded and every class has its own operator==; that equality implies equal evaluation speaks about all contexts.", "anchors": ["src/common/expression/*.cpp: operator==", "src/common/base/CheckPointer.h"]}
{"id": "C80", "title": "A copy of an expression is the expression", "statement": "clone() of an expression tree is defined, gives the same tree, which compares equal and evaluates alike.", "quantifier": "all expression trees", "why_tests_cant": "Trees are unbounded and every class copies its own members; a forgotten member shows only with values other than the defaults.", "anchors": ["src/common/expression/*.h: clone"]}
{"id": "C81", "title": "Decoding an expression from any bytes is safe", "statement": "Expression::decode ends for every byte sequence, never reads outside it, refuses every cut encoding, and a decoded tree has every sub-expression its nodes need.", "quantifier": "all byte sequences, all trees, all places to cut", "why_tests_cant": "The bytes come from the network; there are infinitely many of them, and the decoder is recursive with sizes taken from the bytes.", "anchors": ["src/common/expression/Expression.cpp: Expression::Decoder, Expression::decode", "src/common/expression/*.cpp: resetFrom"]}
{"id": "C82", "title": "The declared type of a function is the type of its result", "statement": "If getReturnType(name, argument types) announces a type, then calling the function on arguments of those types gives a value of that type or null.", "quantifier": "all registered functions, all arguments, all results of the math library, clock and random generator", "why_tests_cant": "The signatures are a table next to a table of about eighty bodies; whether each body can only produce the announced type is a statement about all arguments.", "anchors": ["src/common/function/FunctionManager.cpp: typeSignature_, getReturnType", "src/common/function/FunctionManager.cpp: functions_"]}
{"id": "C83", "title": "A function declared pure depends on its arguments only", "statement": "If getIsPure reports true, two calls with the same arguments give the same result whatever the clock and the random generator do; the others do depend on them.", "quantifier": "all functions, all arguments, all states of the clock and the random generator", "why_tests_cant": "A test cannot range over clock and generator states; the optimizer folds pure calls into constants.", "anchors": ["src/common/function/FunctionManager.cpp: getIsPure", "src/common/function/FunctionManager.cpp: functions_"]}
{"id": "C84", "title": "Every accepted call returns", "statement": "A function is found exactly if it is registered under the lower-cased name with that arity; every announced signature is callable; every call that is found returns a value, without undefined behaviour or looping for ever.", "quantifier": "all names, all argument lists of any length and types", "why_tests_cant": "The bodies check argument types one by one; a missing check shows only for one argument combination.", "anchors": ["src/common/function/FunctionManager.cpp: get, getInternal", "src/common/function/FunctionManager.cpp: functions_"]}
{"id": "C85", "title": "Dates and times from maps", "statement": "date, time and datetime of a map are accepted exactly if every key is a known field holding an integer and the fields, with their defaults, form a valid date or time; the result has those fields.", "quantifier": "all maps", "why_tests_cant": "Validity depends on the combination of the fields and on each range; unknown keys, other types and out-of-range numbers all have to be refused whatever the iteration order.", "anchors": ["src/common/time/TimeUtils.cpp: dateTimeFromMap, dateFromMap, timeFromMap", "src/common/function/FunctionManager.cpp: date, time, datetime"]}
{"id": "C86", "title": "Random numbers stay within their bounds", "statement": "rand32(max) and rand64(max) give a number in [0, max), rand32(min, max) and rand64(min, max) one in [min, max); bad bounds give a null.", "quantifier": "all bounds, all states of the random generator", "why_tests_cant": "A generator is sampled by a test, never exhausted.", "anchors": ["src/common/function/FunctionManager.cpp: rand32, rand64"]}
{"id": "C87", "title": "timestamp and datetime denote the same instant", "statement": "timestamp of a text is the unix time of datetime of that text; timestamp of an integer accepts exactly 0 to INT64_MAX / 10^9.", "quantifier": "all texts, all zone offsets, all integers", "why_tests_cant": "The two functions take different paths through parsing and zone conversion; they agree for the offset a test is run with.", "anchors": ["src/common/time/TimeUtils.cpp: toTimestamp", "src/common/time/TimeUtils.h: parseDateTime", "src/common/function/FunctionManager.cpp: timestamp, datetime"]}
{"id": "C88", "title": "Trimming and letter case", "statement": "trim, ltrim and rtrim remove exactly the blanks at the ends; lower and upper change exactly the ASCII letters; strcasecmp is zero exactly for texts that differ in case only and orders texts consistently.", "quantifier": "all texts, all pairs and triples of texts", "why_tests_cant": "Statements about all strings, including blanks inside, strings of blanks only and bytes outside ASCII.", "anchors": ["src/common/function/FunctionManager.cpp: trim, ltrim, rtrim, lower, upper, strcasecmp"]}
{"id": "C89", "title": "A load takes over exactly what the meta server answered", "statement": "A metadata load succeeds exactly if every request is answered; afterwards spaces, replicas, terms, accounts, schemas, indexes by id, listeners and storage hosts are found exactly if the server listed them, nothing is left of earlier loads, and what the registered listener was told over all loads adds up to the current assignment.", "quantifier": "all answers of the server (nothing listed twice), all histories of earlier loads, failed or not", "why_tests_cant": "Completeness and absence of leftovers range over all pairs of old and new cluster states; a test compares a few lookups after one load.", "anchors": ["src/common/clients/meta/MetaClient.cpp: loadData, loadUsersAndRoles, loadSchemas, loadIndexes, loadListeners", "src/common/clients/meta/MetaClient.cpp: getSpaceIdByNameFromCache, getPartHostsFromCache, authCheckFromCache, getTagIndexFromCache, getListenersBySpaceHostFromCache"]}
{"id": "C90", "title": "A failed load leaves the cache alone", "statement": "If any request of a load fails, the load returns false, every lookup answers as before and the listener is told nothing.", "quantifier": "all cache states, all answers, each request failing or not", "why_tests_cant": "Every one of a dozen requests can be the first to fail, at any space; error paths are rarely exercised.", "anchors": ["src/common/clients/meta/MetaClient.cpp: loadData", "src/common/clients/meta/MetaClient.cpp: loadUsersAndRoles", "src/common/clients/meta/MetaClient.cpp: loadIndexes"]}
{"id": "C91", "title": "Indexes are found by name exactly when they exist", "statement": "After a successful load the index of a name in a space is the one the server listed under that name, and names not listed are not found.", "quantifier": "all histories of loads, failed or not, all spaces and names", "why_tests_cant": "The name maps live outside the cache and are updated during loading; only histories of creating, dropping and failing show the difference.", "anchors": ["src/common/clients/meta/MetaClient.cpp: getTagIndexByNameFromCache, getEdgeIndexByNameFromCache", "src/common/clients/meta/MetaClient.cpp: loadIndexes"]}
{"id": "C92", "title": "After a load the leaders are those the hosts reported", "statement": "After a successful load the cached leader of every part is the host that reported to lead it.", "quantifier": "all cache states, all host reports, all parts", "why_tests_cant": "Depends on the state of the name map at the time of the load; in a long-running test cluster it looks right after the second load.", "anchors": ["src/common/clients/meta/MetaClient.cpp: loadLeader", "src/common/clients/meta/MetaClient.cpp: loadData"]}
{"id": "C93", "title": "Each part is told its remote listeners", "statement": "During a successful load every local part is told exactly the hosts that the server lists as its listeners.", "quantifier": "all cache states, all listener lists, all parts", "why_tests_cant": "Depends on the ready flag at the time of the call; needs a registered listener and many spaces.", "anchors": ["src/common/clients/meta/MetaClient.cpp: loadRemoteListeners", "src/common/clients/meta/MetaClient.cpp: getRemoteListenersFromCache"]}
{"id": "C94", "title": "Cached metadata catches up with the meta server", "statement": "Whatever happened before, after a heartbeat round whose requests are all answered in one version of the server's state, the client is ready and holds exactly that version; if the server does not change, it then stops loading.", "quantifier": "all sequences of server versions, all histories of rounds with failing heartbeats, failing or torn loads and start-up", "why_tests_cant": "Loads are not atomic: the server may change between any two requests. Lost updates need particular interleavings.", "anchors": ["src/common/clients/meta/MetaClient.cpp: isMetadReady", "src/common/clients/meta/MetaClient.cpp: heartBeatThreadFunc", "src/common/clients/meta/MetaClient.cpp: heartbeat", "src/common/clients/meta/MetaClient.cpp: loadData"]}
{"id": "C95", "title": "Answers of the graph service arrive as sent", "statement": "Reading the bytes written for an execution response, a login answer, a host address or a key-value pair gives every member that was set, leaves the others as they were and leaves the bytes that follow unread; only edge types in the result are reduced to their sign.", "quantifier": "all responses whose numbers fit and whose texts are shorter than 2^31, all objects read into, all following bytes", "why_tests_cant": "Result tables, plans and profiles nest arbitrarily; optional members give over a hundred shapes of one response.", "anchors": ["src/common/graph/ExecutionResponseOps.inl:69-280", "src/common/graph/AuthResponseOps.inl:61-224", "src/common/graph/Plan*Ops.inl, ProfilingStatsOps.inl, PairOps.inl", "src/common/datatypes/HostAddrOps.inl, KeyValueOps.inl"]}
{"id": "C96", "title": "Any bytes can be read as an answer", "statement": "Reading a response from any bytes ends; what follows a response does not change it; a response cut short, or without its error code or latency, is refused.", "quantifier": "all byte strings, all cutting points", "why_tests_cant": "All byte strings and all cutting points of all responses cannot be enumerated.", "anchors": ["src/common/graph/ExecutionResponseOps.inl:116-280", "src/common/graph/AuthResponseOps.inl:102-224"]}
{"id": "C97", "title": "Members of newer peers are skipped", "statement": "A response that carries additional members, nested to any depth, is read as if they were missing; so is one with a member of an unexpected type.", "quantifier": "all responses, all additional members: numbers, texts, values, lists, maps and structs of these", "why_tests_cant": "The future members are not known when the tests are written.", "anchors": ["src/common/graph/ExecutionResponseOps.inl:231-261", "src/common/graph/AuthResponseOps.inl:180-212"]}
{"id": "C98", "title": "Responses are equal exactly if their members are", "statement": "operator== of login answers, plans and execution responses holds exactly if all members are equal, hash maps in any order, and is an equivalence.", "quantifier": "all pairs of responses", "why_tests_cant": "A member left out of the comparison shows only in pairs that differ in nothing else.", "anchors": ["src/common/graph/Response.h:196-412", "src/common/graph/Response.cpp:11-28"]}
{"id": "C99", "title": "A cleared response holds only what is read next", "statement": "After clear(), reading a response gives the same as reading into a new object.", "quantifier": "all earlier contents, all bytes", "why_tests_cant": "A member that clear() forgets shows only if the earlier response had it and the next one has not.", "anchors": ["src/common/graph/Response.h:209-218, 376-388"]}
{"id": "C100", "title": "A full-text search asks for what was searched", "statement": "For every searched text, column, fuzziness and operator, the command of a search is one curl command whose URL names the index and timeout and whose JSON body denotes the query; no byte of the text reaches the shell unquoted.", "quantifier": "all byte strings as texts and columns, all JSON values as fuzziness, all orders of the hash map, clients without shell characters, index names without the four characters special between double quotes", "why_tests_cant": "Two quotings are nested (JSON in single quotes); a text that breaks out is any that combines them.", "anchors": ["src/common/plugin/fulltext/FTUtils.h:81-91, 176-178", "src/common/plugin/fulltext/elasticsearch/ESGraphAdapter.cpp:16-159"]}
{"id": "C101", "title": "Every document put or bulk-inserted reaches the server as given", "statement": "put is one curl request with the document's identifier in its URL and a body that denotes its column and value; bulk is one request with two lines for every document, in order, that denote its place and its data.", "quantifier": "all values, all lists of documents", "why_tests_cant": "Quoting and line breaks in values interact with the lines of the request.", "anchors": ["src/common/plugin/fulltext/elasticsearch/ESStorageAdapter.cpp:146-213", "src/common/plugin/fulltext/FTUtils.h:158-193"]}
{"id": "C102", "title": "Index commands and credentials survive the shell", "statement": "Creating, dropping and asking for an index is one curl request with the client's user name and password and the index's URL.", "quantifier": "all clients and index names", "why_tests_cant": "Names in tests have no characters special to the shell.", "anchors": ["src/common/plugin/fulltext/FTUtils.h:81-91", "src/common/plugin/fulltext/elasticsearch/ESGraphAdapter.cpp:162-222"]}
{"id": "C103", "title": "Document identifiers tell documents apart", "statement": "Two documents have the same identifier exactly if part, column and value are the same; an identifier has at most 512 bytes and only characters that stand for themselves in a URL; what is cut off a value leaves a valid text.", "quantifier": "all documents", "why_tests_cant": "Collisions and cuts inside a character appear for particular values only.", "anchors": ["src/common/plugin/fulltext/FTUtils.h:158-193", "src/common/encryption/Base64.cpp:12-16"]}
{"id": "C104", "title": "The plugin reports what the server answered", "statement": "put, bulk, createIndex, dropIndex and indexExists report success exactly if the server's answer to this very request says so; a search adds the values of the hits in order behind the caller's rows, and a failed search adds none.", "quantifier": "all answers of the server, all requests", "why_tests_cant": "The answers are arbitrary texts; only a few are in tests.", "anchors": ["src/common/plugin/fulltext/elasticsearch/ESGraphAdapter.cpp:224-289", "src/common/plugin/fulltext/elasticsearch/ESStorageAdapter.cpp:16-144", "src/common/process/ProcessUtils.cpp:144-168"]}
{"id": "C105", "title": "The first route registered for a request serves it", "statement": "After any registrations of well-formed routes, a request is served by the first registered route of its method that fits its path, with that route's parameters; without one it gets the not-found handler. Fixed routes fit exactly the paths equal to theirs up to one slash at the end. The router never fails on a request.", "quantifier": "all lists of registrations, methods and paths", "why_tests_cant": "Which route wins depends on the whole table; a CHECK on the number of groups could fail for some paths only.", "anchors": ["src/common/webservice/Router.cpp:19-36, 62-136", "src/common/webservice/Router.h:34-105"]}
{"id": "C106", "title": "A path template serves its instances only", "statement": "A template with parameters fits a path exactly if the path results from putting non-empty values without slashes for the parameters, up to one slash at the end.", "quantifier": "all templates and paths", "why_tests_cant": "Only particular longer paths and particular characters in templates show a difference.", "anchors": ["src/common/webservice/Router.cpp:23-77"]}
{"id": "C107", "title": "Parameters get the values from the path", "statement": "The handler of a template is given, for every parameter, the text that stands for it in the path; a template with a name twice is refused.", "quantifier": "all templates, all paths that are instances, with or without a slash at the end, all routes before and after it", "why_tests_cant": "Greedy groups could take text of their neighbours.", "anchors": ["src/common/webservice/Router.cpp:42-60, 92-113"]}
{"id": "C108", "title": "Configuration items are fetched in their own type", "statement": "After a successful parse, fetchAsInt, fetchAsDouble, fetchAsBool, fetchAsString and fetchAsSubConf give exactly the item under the key if it has their type; otherwise they report failure and leave the caller's variable alone. upsertStringField is refused exactly for items of another type, is read back, and changes no other item. A failed parse changes nothing.", "quantifier": "all configurations, keys and variables", "why_tests_cant": "Every item, present or not, of every type would have to be tried with every function.", "anchors": ["src/common/conf/Configuration.cpp:12-19, 70-79, 98-176"]}
{"id": "C109", "title": "Configuration arrays are fetched whole or not at all", "statement": "The array functions succeed exactly if the item is an array whose entries all convert, and then append their values in order; otherwise the caller's variable is unchanged. Entries of the own type, and decimal texts for integers, convert to themselves.", "quantifier": "all configurations, keys, arrays and earlier contents of the variable", "why_tests_cant": "The behaviour after a bad entry depends on where in the array it stands.", "anchors": ["src/common/conf/Configuration.cpp:179-272"]}
{"id": "C110", "title": "Comments in configuration files leave no trace", "statement": "Parsing a file is parsing its text without the comments from // or # to the end of their line; text inside strings is kept.  A file that cannot be read, is empty or is not JSON is reported and changes nothing.", "quantifier": "all files, all comments", "why_tests_cant": "Comment marks can stand anywhere, in strings too.", "anchors": ["src/common/conf/Configuration.cpp:22-67", "src/common/conf/Configuration.h:12-15"]}
{"id": "C111", "title": "Flags are declared to the meta server with the values they hold", "statement": "declareGflags yields, for a module that is known, exactly the flags that are mutable (built in or listed in the file), each with the value its text denotes; nested flags as maps of their JSON object. Converting a flag's text to a value and back gives the text.", "quantifier": "all lists of flags with their texts, all contents of the file", "why_tests_cant": "Types, nested flags, lists in the file and unreadable texts combine; a bad text may end the process.", "anchors": ["src/common/meta/GflagsManager.cpp:16-142, 163-195"]}
{"id": "C112", "title": "Flags follow the meta server", "statement": "After every load that reports success, each mutable flag the meta server lists holds the server's value; other flags are untouched; a load succeeds exactly if registering and listing succeed, whatever is answered.", "quantifier": "all sequences of loads and answers, all orders of the hash map", "why_tests_cant": "Whether a value is taken over depends on the cache left by all earlier loads.", "anchors": ["src/common/clients/meta/MetaClient.cpp:2998-3005, 3107-3168", "src/common/meta/GflagsManager.cpp:16-45, 163-195"]}
{"id": "C113", "title": "Nested options reach the listener once and as given", "statement": "When a nested item changes, the listener is told once for each space, every option with its value; the flag then holds a JSON object with the same options; loading the same answer again tells nothing.", "quantifier": "all maps of options, all spaces, all earlier states", "why_tests_cant": "The text printed for a map depends on the kinds of its values.", "anchors": ["src/common/clients/meta/MetaClient.cpp:3142-3181", "src/common/meta/GflagsManager.cpp:179-189"]}
{"id": "C114", "title": "Setting flags over HTTP sets what it says", "statement": "PUT /flags with a JSON object: every flag that a member names and that takes its text shows it afterwards, all other flags are as before, and the answer lists exactly the members whose flag does not exist or refuses the text. Bodies that are not JSON or ask for nothing are answered 400 and change nothing. Every request is answered.", "quantifier": "all bodies, all sets of flags, all validators", "why_tests_cant": "Any JSON value can be sent, and members meet flags of every type; the flags after a partly refused request depend on every member.", "anchors": ["src/common/webservice/SetFlagsHandler.cpp:22-86"]}
{"id": "C115", "title": "Flags are shown over HTTP as they are", "statement": "GET /flags answers with one entry for each name asked for, in order (all flags if there is no name): the flag's value in the flag's own type, null for a name that is no flag, and with verbose its default, type, description and file. What was set by PUT is shown by GET. Every request is answered, and numbers are shown as they are.", "quantifier": "all sets of flags, all lists of names, both formats, verbose or not", "why_tests_cant": "Types, formats, verbosity and unknown names combine.", "anchors": ["src/common/webservice/GetFlagsHandler.cpp:23-207"]}
{"id": "C116", "title": "Statistics are shown over HTTP as they are", "statement": "GET /stats answers every metric asked for in order, with its value at this time or, exactly if it has none, with a text of the error; without names it shows everything published for every counter that can be measured, and each of them has the same value when asked for by name.", "quantifier": "all histories of registrations and added values, all lists of names, both formats", "why_tests_cant": "The manager's state depends on the whole history, and names are parsed.", "anchors": ["src/common/webservice/GetStatsHandler.cpp:25-124", "src/common/stats/StatsManager.cpp:207-444"]}
{"id": "C117", "title": "Each built-in path of the web service has its handler", "statement": "The web service serves GET and PUT /flags, GET /stats, GET /status and GET / (behind the service's name, if it has one), each with its own handler and with or without a slash at the end, and nothing else; no handler gets a request with another method.", "quantifier": "all names without ':', all methods and paths", "why_tests_cant": "All paths and methods would have to be tried.", "anchors": ["src/common/webservice/WebService.cpp:55-89", "src/common/webservice/Router.cpp:62-136"]}
{"id": "C118", "title": "A client from the client manager leads to the host asked for, is alive, and is reused", "statement": "Over every sequence of calls of client() in a thread, the client returned leads to the host (or what its name resolves to then) and port asked for, on the event base asked for; it is either new or was returned before and is still good; a good client is returned again to every later call for the same host and event base; and it has the timeout and protocol asked for.", "quantifier": "all sequences of calls, hosts, event bases, options, resolutions and failures of connections", "why_tests_cant": "Failures, resolutions and calls for other hosts may come in any order between two calls; tests connect once.", "anchors": ["src/common/thrift/ThriftClientManager.inl:17-87", "src/common/thrift/ThriftClientManager.h:19-43"]}
{"id": "C119", "title": "The client manager holds one client for each host and event base, and replaces broken ones", "statement": "Over every sequence of calls in a thread, the client manager holds at most one client for each address and event base, one that was returned and leads there; after a call it holds the client returned, in place of a broken one; and the number of connections it opens does not grow with the number of calls while they stay good.", "quantifier": "all sequences of calls, hosts, event bases, resolutions and failures of connections", "why_tests_cant": "A leak shows only over long sequences of calls for mixed names and addresses.", "anchors": ["src/common/thrift/ThriftClientManager.inl:24-45", "src/common/thrift/ThriftClientManager.inl:50-86"]}
{"id": "C120", "title": "A storage call sends every item once, to the leader of the part of its vertex", "statement": "Each of getNeighbors, getProps, addVertices, addEdges, deleteVertices, deleteEdges, deleteTags, get, put and remove sends every item exactly once: to the host the leader cache holds for the part of its vertex, under that part, in input order within a part; integer ids become their eight bytes, all else is unchanged. Every request carries the space and the arguments, and no host or part is named twice or without items. If every part has replicas, a call makes its requests exactly if all ids are of the type of the space.", "quantifier": "all items of all kinds, spaces, allocations and leader caches", "why_tests_cant": "The grouping depends on ids, hashes, leaders and their order together; tests use a handful of ids.", "anchors": ["src/common/clients/storage/GraphStorageClient.cpp:13-325", "src/common/clients/storage/GraphStorageClient.cpp:576-770", "src/common/clients/storage/GeneralStorageClient.cpp:14-113", "src/common/clients/storage/StorageClientBase.inl:296-345"]}
{"id": "C121", "title": "Storage calls leave the caller's items as they are", "statement": "getNeighbors and getProps take the rows by constant reference and leave them unchanged, so that the call can be made again with them.", "quantifier": "all rows, spaces, allocations and leader caches", "why_tests_cant": "The change is behind a const_cast and depends on the type of ids of the space; a test that does not use its rows again cannot see it.", "anchors": ["src/common/clients/storage/GraphStorageClient.h:40-120", "src/common/clients/storage/GraphStorageClient.cpp:576-618"]}
{"id": "C122", "title": "Single requests follow the vertex, lookups cover every part once", "statement": "updateVertex, updateEdge and getUUID go to the host the leader cache holds for the part of the vertex, with the id as bytes: to where an insertion of the vertex went, as long as the leader is the same. lookupIndex and lookupAndTraverse ask for every part of the space exactly once, at its leader.", "quantifier": "all ids, spaces, allocations and leader caches", "why_tests_cant": "Agreement of two routes for every id and any number of parts.", "anchors": ["src/common/clients/storage/GraphStorageClient.cpp:326-574", "src/common/clients/storage/StorageClientBase.inl:347-363"]}
{"id": "C123", "title": "A forwarded transaction is retried until a leader answers, and the answer is reported", "statement": "forwardTransaction sends the transaction as given to the internal port of the part's leader; after E_LEADER_CHANGED it sends the same again, to the leader named in the answer or to the next replica in turn, and the first other code is the result: success if nothing failed, E_RPC_FAILURE if the RPC failed, a missing space or part as such. It ends.", "quantifier": "all sequences of answers, changes of the leader cache by others, allocations and data", "why_tests_cant": "The number of attempts is unbounded and each depends on all earlier answers.", "anchors": ["src/common/clients/storage/InternalStorageClient.cpp:13-93", "src/common/clients/storage/StorageClientBase.inl:222-292"]}
{"id": "C124", "title": "Reading a value asks the leader of the part in which the key is", "statement": "getValue asks the leader of the part of the key's vertex for the key, retries after E_LEADER_CHANGED, and gives the value of the answer if no part failed and its code otherwise; a missing space or part is reported as such, and every key is handled.", "quantifier": "all keys, lengths of ids, spaces, answers, changes of the leader cache by others", "why_tests_cant": "Keys, hashes, leaders and answers combine; the RPC cannot be unit-tested.", "anchors": ["src/common/clients/storage/InternalStorageClient.cpp:95-150"]}
{"id": "C125", "title": "Iterating a path gives its lines or entries that match, in order, and ends", "statement": "An iterator over a path to a regular file, or to a link to one, gives exactly the lines that match the pattern, in order, each with what the pattern found in it; over a directory exactly its names that do not begin with a dot. Over anything that cannot be read it gives nothing and its status says so.", "quantifier": "all contents, lengths of lines, patterns, file systems and kinds of files", "why_tests_cant": "Contents without a last line feed, empty lines, links to unreadable things and their combinations with patterns have to be covered together.", "anchors": ["src/common/fs/FileUtils.h:163-250", "src/common/fs/FileUtils.cpp:460-561"]}
{"id": "C126", "title": "Listing a directory does not depend on what the file system tells with the entries", "statement": "A listing of the entries of a type gives exactly the names of that type that match the pattern, but for . and .., in the order of the directory; and the same whether or not the file system reports the types of its entries.", "quantifier": "all directories, types, patterns and file systems", "why_tests_cant": "Tests run on one file system, which always or never reports the types.", "anchors": ["src/common/fs/FileUtils.cpp:394-457", "src/common/fs/FileUtils.h:257-266"]}
{"id": "C127", "title": "A pid file is free exactly if it names no other running process, and keeps daemons single", "statement": "isPidAvailable of a pid file answers OK iff the first number in it is that of this process or of none, or it has no number, or there is no file; what makePidFile has written under an OK is read back as that process. Daemons that check the file before starting and write it are never more than one at a time, and another can start after one has ended.", "quantifier": "all contents of pid files, processes, and interleavings of starts and exits", "why_tests_cant": "Contents, pids and schedules are unbounded; races do not show in a unit test.", "anchors": ["src/common/process/ProcessUtils.cpp:15-79", "src/common/process/ProcessUtils.cpp:82-100"]}
{"id": "C128", "title": "Commands are run with the arguments given, and their failure is reported", "statement": "runCommand gives the whole output of a command, of any length, or an error if the command fails. The commands of HttpClient and HdfsCommandHelper pass the URL, options, data and paths they are given as they are to curl and hdfs, as one argument each.", "quantifier": "all outputs, URLs, options, JSON data, hosts and paths", "why_tests_cant": "The shell's reading of the text is not visible in unit tests, which use plain texts.", "anchors": ["src/common/process/ProcessUtils.cpp:144-168", "src/common/http/HttpClient.cpp:13-101", "src/common/hdfs/HdfsCommandHelper.cpp:13-41"]}
{"id": "C129", "title": "Every signal that is handled reaches its handler once, and fatal ones end the process", "statement": "After an install of signals that was answered OK, each later arrival of one of them calls the handler last installed for it exactly once, with the number and the sender of the signal, and the process goes on; signals nobody installed keep their default, but SIGPIPE and SIGHUP are ignored from the first install on. A fatal signal always ends the process with that signal. A signal may arrive at any time.", "quantifier": "all histories of installs and arrivals, signals, handlers, senders, and arrivals inside an install", "why_tests_cant": "Arrivals between any two instructions cannot be produced in a test; fatal signals end the process under test.", "anchors": ["src/common/base/SignalHandler.cpp:16-87", "src/common/base/SignalHandler.cpp:96-136"]}
{"id": "C130", "title": "Full-text index lookups answer with the indexes last told by the meta service", "statement": "Before the first answer of the meta service every lookup says it is not ready. Afterwards a lookup by name finds the index told last under that name, in its space only, and a name that was not told is not found; lookups of all indexes, by space and by schema give exactly the indexes told last that qualify. No lookup changes the cache.", "quantifier": "all sequences of loads and lookups, names, spaces, schemas, and orders of the hash map", "why_tests_cant": "Which lookups came before and the order of a hash map cannot be enumerated; the lookups run under a read lock.", "anchors": ["src/common/clients/meta/MetaClient.cpp: loadFulltextIndexes (493-517)", "src/common/clients/meta/MetaClient.cpp: getFTIndexesFromCache, getFTIndexBySpaceFromCache, getFTIndexBySpaceSchemaFromCache, getFTIndexByNameFromCache (3602-3654)", "src/common/meta/ServerBasedSchemaManager.cpp: getFTClients, getFTIndex"]}
{"id": "C131", "title": "A storage host belongs to one cluster for ever", "statement": "In every execution, with restarts, failed heartbeats, failed writes and crashes while the file is being written, all cluster ids other than 0 that a storage host sends in its heartbeats are the same: the one in its file at the beginning, or else one the meta service answered. It is on disk before it is sent, and from then on every heartbeat carries it. Processes of other roles never send an id and never touch the file.", "quantifier": "all executions: starts, stops, heartbeats with any answers, failures of writing, and crashes at any point", "why_tests_cant": "Crashes between the calls of writing a file, and restarts after them, are not reached by unit tests.", "anchors": ["src/common/clients/meta/MetaClient.cpp: heartbeat (2466-2523)", "src/common/clients/meta/FileBasedClusterIdMan.cpp"]}
{"id": "C132", "title": "Hosts are told exactly the parts they serve, and all latest schemas are the newest ones", "statement": "With a cache as loadData leaves it, checkPartExistInCache answers OK exactly if the host is one of the part's hosts; it says which of space, host or part is missing, and agrees with the map of parts getPartsMapFromCache gives the host. checkSpaceExistInCache answers OK exactly if the host serves a part of the space. getAllLatestVerTagSchema and getAllLatestVerEdgeSchema never read outside a vector, and give for every tag or edge type received the schema of its largest version, and no other.", "quantifier": "all assignments of parts, hosts, spaces, and schemas received", "why_tests_cant": "Assignments and schemas are unbounded; the reversed map must agree with the assignment for all of them.", "anchors": ["src/common/clients/meta/MetaClient.cpp: checkPartExistInCache (1470-1489)", "src/common/clients/meta/MetaClient.cpp: checkSpaceExistInCache (1492-1503)", "src/common/clients/meta/MetaClient.cpp: getAllLatestVerTagSchema, getAllLatestVerEdgeSchemaFromCache (2067-2113)", "src/common/clients/meta/MetaClient.cpp: reverse (550-559)"]}
{"id": "C133", "title": "Key-value calls of clients stay inside their segment and ask for what was said", "statement": "multiPut, get, multiGet, scan, remove and removeRange send a request exactly if the segment is a word of ASCII letters and digits and no other argument is empty; the request says segment, keys and values as given. No such request can touch the segment where the defaults of fields are kept, and the request for a default says which space, which tag or edge type and which field is meant.", "quantifier": "all segments, keys, values, lists of them, spaces, numbers and fields", "why_tests_cant": "Segments and keys are unbounded byte strings; that two requests are never confused is a statement on pairs.", "anchors": ["src/common/clients/meta/MetaClient.cpp: multiPut, get, multiGet, scan, remove, removeRange (1296-1438)", "src/common/clients/meta/MetaClient.cpp: getTagDefaultValue, getEdgeDefaultValue (2757-2806)", "src/common/meta/Common.h:66-72"]}
{"id": "C134", "title": "Questions about a space are answered from its description, and only when it fits", "statement": "getSpaceDesc, getSpaceVidLen, getSpaceVidType and getIsolationLevel answer exactly for spaces the ready cache knows, with what the description says: a length that is positive, a type that is INT64 or FIXED_STRING, an isolation level that defaults to DEFAULT; otherwise they are errors. A space that has a type for its ids has a length for them.", "quantifier": "all caches, spaces and descriptions", "why_tests_cant": "Descriptions come from the meta service; unset fields and odd values are not produced by tests.", "anchors": ["src/common/clients/meta/MetaClient.cpp: getSpaceVidLen, getSpaceVidType, getSpaceDesc, getIsolationLevel (1950-2009)"]}
{"id": "C135", "title": "The tables of character sets agree with each other", "statement": "A character set is supported iff it has a default collation, which is supported and belongs to it; a collation is supported iff it belongs to some character set; the character set found for a collation is exactly the one it matches, and what matches is supported.", "quantifier": "all names of character sets and collations, byte for byte", "why_tests_cant": "Names are unbounded strings; tests try a few.", "anchors": ["src/common/charset/Charset.h:69-89", "src/common/charset/Charset.cpp:11-60"]}
{"id": "C136", "title": "The global time zone is the one asked for, or it stays", "statement": "initializeGlobalTimezone takes the name from the flag, or from TZ if the flag is empty; it answers OK exactly if the name is a colon and a region of the table of zones, or a POSIX zone boost can read, and then offset and name are those of that zone. If it fails, the zone in force before stays. Doing it again changes nothing.", "quantifier": "all flags, environments, tables of zones, readings of POSIX zones, and earlier states", "why_tests_cant": "Tests run with one table and one environment, once per process.", "anchors": ["src/common/time/TimezoneInfo.h:29-67", "src/common/time/TimezoneInfo.cpp:29-49"]}
{"id": "C137", "title": "Ticks are converted to time with a bounded error, and in order", "statement": "For every rate from 1 to 2^53 ticks in a microsecond and every number of ticks below 2^63, the conversions to seconds, milliseconds and microseconds are defined, and differ from the exact quotient, rounded (seconds, milliseconds) or cut off (microseconds), by no more than a relative error of 2^-49 before rounding. More ticks never give less time. Whole microseconds are converted exactly.", "quantifier": "all rates, all numbers of ticks, all three units", "why_tests_cant": "A bound on floating point errors, and monotonicity, are statements on 2^116 pairs of rates and ticks.", "anchors": ["src/common/time/detail/TscHelper.cpp:60-84", "src/common/time/Duration.cpp:47-65"]}
{"id": "C138", "title": "The fast clock follows the wall clock and does not go back", "statement": "The slow clock's three readings agree with each other and never decrease when the time does not. The fast clock gives the wall time at its start plus the time of the ticks since; it never goes back, and it follows the wall clock.", "quantifier": "all start times, rates, calibrations and ticks within reach (2^62 ticks, 2^40 seconds)", "why_tests_cant": "Calibrations happen in a background thread every two seconds; tests see neither interruptions inside them nor drift over hours.", "anchors": ["src/common/time/detail/TscHelper.cpp:11-31,60-104", "src/common/time/WallClock.cpp:14-48"]}
{"id": "C139", "title": "An operation is slow exactly if it takes longer than the threshold", "statement": "slow says yes exactly if more milliseconds have passed since the tracker was made than the threshold, or than the flag if no positive threshold is given; earlier questions have no influence, and a clock that has gone back makes nothing slow. With the fast clock this holds up to rounding: an operation 1.004 ms over the threshold is slow, and one 0.004 ms below it is not.", "quantifier": "all thresholds, non-negative flags, times, questions asked before, rates and ticks", "why_tests_cant": "Times are unbounded, and the effect of rounding two readings is not visible in tests that sleep.", "anchors": ["src/common/base/SlowOpTracker.h:17-39", "src/common/time/WallClock.cpp:41-43"]}
{"id": "C140", "title": "The text operators say what they say, and their negations the opposite", "statement": "CONTAINS, STARTS WITH and ENDS WITH of two texts are true exactly if the right text stands somewhere in, at the front of, or at the end of the left one, byte for byte; the NOT forms give the opposite. With a null they give null, with anything else bad type, and so does =~. What starts or ends with a text contains it; texts that contain each other are equal.", "quantifier": "all expressions, contexts, texts and values of operands", "why_tests_cant": "Texts are unbounded byte strings; the relations between operators are statements on pairs of evaluations.", "anchors": ["src/common/expression/RelationalExpression.cpp:14-213"]}
{"id": "C141", "title": "IN is equality with one of the members", "statement": "v IN l is the three-valued disjunction of the comparisons of v with the members of the list or set l: true if one is equal, else null if one comparison is null, else false; NOT IN is its negation, also when it is null. A null on either side gives null, a right operand that is no collection bad type. For a map it asks for a key.", "quantifier": "all expressions, contexts, values, lists, sets and maps", "why_tests_cant": "Collections are unbounded and may hold nulls at any place; IN must agree with another operator of the language.", "anchors": ["src/common/expression/RelationalExpression.cpp:60-104", "src/common/datatypes/List.h:60-62", "src/common/datatypes/Set.h", "src/common/datatypes/Map.h"]}
{"id": "C142", "title": "A path built from items is a walk along its edges", "statement": "The path of a vertex followed by edges and vertices exists exactly if every edge goes from the vertex reached to the next one, and then has these steps in order; two paths are joined exactly if the second begins where the first ends. Any other items give bad data or bad type, never a crash.", "quantifier": "all lists of items: vertices, edges, paths and other values", "why_tests_cant": "Lists of items are unbounded; tests build paths of two or three steps.", "anchors": ["src/common/expression/PathBuildExpression.cpp:13-100"]}
{"id": "C143", "title": "List, set and map literals hold their items", "statement": "A list literal gives its items' values in order, each evaluated once from left to right. A set literal gives a set whose elements are the items' values without repetition. A map literal has exactly the keys of its items, each once, with the value of the first item of that key.", "quantifier": "all numbers of items, expressions with side effects, values and keys", "why_tests_cant": "Numbers of items are unbounded and items may change the context for those after them.", "anchors": ["src/common/expression/ContainerExpression.cpp:52-63,124-135,201-212"]}
{"id": "C144", "title": "++ and -- change one variable by one", "statement": "++ and -- of a variable set it to its value plus or minus one, give the new value, and change no other variable; one undoes the other. Of any other expression they give bad type.", "quantifier": "all contexts, variables, values and operand expressions", "why_tests_cant": "That no other variable changes quantifies over all names; the ends of the range are single points.", "anchors": ["src/common/expression/UnaryExpression.cpp:60-83"]}
{"id": "C145", "title": "A cast gives the type asked for, and the value meant", "statement": "A cast that is validated gives a value of the type asked for, or a null, and one that is not validated gives bad type. A text is cast to the integer it stands for, to overflow if that has more than 64 bits, and to null if it stands for none; a float is cut off, towards zero; true and false in any case are cast to truth values. Casting an integer or a truth value to text and back gives it again.", "quantifier": "all operand expressions, contexts, values, texts and target types", "why_tests_cant": "Texts, numbers and containers are unbounded; validation and evaluation are two tables that have to agree for all pairs of types.", "anchors": ["src/common/expression/TypeCastingExpression.cpp:12-95", "src/common/datatypes/Value.cpp:1558-1654"]}
{"id": "C146", "title": "Values are independent of each other", "statement": "A program of constructions, assignments by copy and by move, clear, swap, moveXxx and setXxx on Values, and on Values inside Values, of which no two used in one operation are inside one another, never uses memory that is not alive, and leaves in every Value what would be there if every Value were copied as a whole: a later change of one Value is never seen in another.", "quantifier": "all numbers of variables, sequences of operations, nestings of lists, maps, sets, vertices, edges, paths and data sets, and states reached", "why_tests_cant": "The states of the heap reached by sequences of operations are unbounded, as are nestings; a use of freed memory is mostly not seen by a test.", "anchors": ["src/common/datatypes/Value.cpp:99-262,440-687,871-1482,1832-1836", "src/common/datatypes/Value.h:360-400"]}
{"id": "C147", "title": "No memory of a Value is lost or shared", "statement": "After any such program the blocks of memory in use are as many as the strings and containers in the variables, no block belongs to two Values that are not inside one another, and once all variables are cleared no block is left.", "quantifier": "all numbers of variables, sequences of operations and states reached", "why_tests_cant": "Leaks and double frees depend on the whole history; the histories are unbounded.", "anchors": ["src/common/datatypes/Value.cpp:1012-1277", "src/common/datatypes/Value.h:360-400"]}
{"id": "C148", "title": "A Value can be assigned a part of itself, and a part the whole", "statement": "Assigning to a Value one of the Values inside it, by copy or by move, gives that Value; assigning a Value to one inside it puts a copy there; setting a Value from what its own get function refers to leaves it as it is; and an assignment that fails for lack of memory leaves a Value that can be destroyed.", "quantifier": "all states, Values and Values inside them", "why_tests_cant": "Paths to parts are unbounded; use of destroyed memory often seems to work.", "anchors": ["src/common/datatypes/Value.cpp:440-687,1100-1482"]}
{"id": "C149", "title": "Every complete expression prints", "statement": "toString gives a text for exactly those expression trees in which every operator has its operands, the right side of a dot is a constant, a conditional has its default, AND, OR and XOR have an operand, a predicate has its filter and an aggregate its argument; for all of them it stops with a text, and for no other.", "quantifier": "all expression trees of all kinds and depths", "why_tests_cant": "Trees are unbounded and any node in any depth may be the one that does not print.", "anchors": ["src/common/expression/AttributeExpression.cpp:76-90", "src/common/expression/LogicalExpression.cpp:107-134", "src/common/expression/CaseExpression.cpp:84-116", "src/common/expression/PredicateExpression.cpp:243-261", "src/common/expression/AggregateExpression.cpp:60-80", "src/common/expression/ContainerExpression.cpp:15-29,87-101,159-175"]}
{"id": "C150", "title": "Equal expressions and copies print alike", "statement": "Two expression trees that operator== calls equal have the same text; a clone and a tree that was encoded and decoded have the text, and the raw text, of the original.", "quantifier": "all pairs of expression trees, all kinds of nodes and constants", "why_tests_cant": "Pairs of trees are unbounded; a member that is printed but not compared, or not copied, may be anywhere.", "anchors": ["src/common/expression/AggregateExpression.cpp:11-18,60-80", "src/common/expression/ListComprehensionExpression.cpp:69-103,142-161", "src/common/expression/TextSearchExpression.cpp:12-78", "src/common/expression/TextSearchExpression.h:128-131"]}
{"id": "C151", "title": "The text of an expression tells the expression", "statement": "Two different expression trees have different texts, so that the text can serve as the name of a column or as a key; and the text of one is not the beginning of that of another before a closing bracket or a comma.", "quantifier": "all pairs of expression trees", "why_tests_cant": "That no two of infinitely many trees print alike cannot be tried out.", "anchors": ["src/common/expression/ArithmeticExpression.cpp:39-63", "src/common/expression/RelationalExpression.cpp:215-269", "src/common/expression/UnaryExpression.cpp:101-133", "src/common/expression/SubscriptExpression.cpp:106-114,189-203", "src/common/expression/TypeCastingExpression.cpp:130-134", "src/common/expression/PropertyExpression.cpp:142-178", "src/common/expression/VariableExpression.cpp:44-65", "src/common/expression/FunctionCallExpression.cpp:85-94"]}
{"id": "C152", "title": "A call of the meta client asks for what it was told", "statement": "The request that each of the calls of the meta client sends names the remote function that stands for it and carries every argument in the field meant for it: a server that reads requests by meta.thrift gets the call and its arguments back, so different calls send different requests; every request has the fields of its struct with their types, and all those that are not optional.", "quantifier": "all 75 calls and all their arguments, of any length", "why_tests_cant": "A test calls a function with a few arguments and a server written by the same hand; that no two calls are confused is about all pairs of calls.", "anchors": ["src/common/clients/meta/MetaClient.cpp:1049-1196", "src/common/clients/meta/MetaClient.cpp:1517-1947", "src/common/clients/meta/MetaClient.cpp:2116-2152", "src/common/clients/meta/MetaClient.cpp:2526-2754", "src/common/clients/meta/MetaClient.cpp:2810-2996", "src/common/clients/meta/MetaClient.cpp:3229-3600", "src/common/clients/meta/MetaClient.cpp:3656-3760", "src/common/interface/meta.thrift:331-1145"]}
{"id": "C153", "title": "A call of the meta client answers what the server said", "statement": "What a caller gets is made of a response to its request with the code SUCCEEDED: the field that the response has beside code and leader, the id of what was made if the union holds an id of that kind, or true; a call that failed never answers false but an error; getPartsAlloc overwrites the terms it was given for the parts the response has terms of, and only those.", "quantifier": "all calls, all responses of the right struct, all sequences of outcomes of the attempts", "why_tests_cant": "Responses, their maps and the outcomes of attempts are unbounded.", "anchors": ["src/common/clients/meta/MetaClient.cpp:560-678", "src/common/clients/meta/MetaClient.cpp:1085-1098", "src/common/clients/meta/MetaClient.cpp:1173-1197", "src/common/clients/meta/MetaClient.cpp:2695-2738", "src/common/clients/meta/MetaClient.cpp:3465-3486", "src/common/clients/meta/MetaClient.cpp:3656-3760"]}
{"id": "C154", "title": "Loading data through the meta service", "statement": "download and ingest ask the meta service for exactly the given host, port, path and space, and answer true exactly if the service says that it succeeded, false otherwise.", "quantifier": "all texts and numbers, all outcomes of the command that is run, outputs of any length", "why_tests_cant": "The texts go unescaped into a URL inside a shell command; which texts break it is about all texts, and the outcome of popen and fread cannot be chosen in a test.", "anchors": ["src/common/clients/meta/MetaClient.cpp:3762-3800", "src/common/http/HttpClient.cpp:13-22", "src/common/base/StatusOr.h:246-249"]}
{"id": "C155", "title": "The size announced for a value is enough for it", "statement": "The size that serializedSize and serializedSizeZC announce for a value in the compact protocol is at least the number of bytes that write produces for it, and at most ten times that number, as long as the result stays below 4 GiB.", "quantifier": "all values of every type, of any size and nesting", "why_tests_cant": "Values nest without bound, and an announced size that is too small shows only for the combination of members it forgot.", "anchors": ["src/common/datatypes/ValueOps.inl:470-773", "src/common/datatypes/DateOps.inl:172-255", "src/common/datatypes/VertexOps.inl:150-226", "src/common/datatypes/EdgeOps.inl:252-323", "src/common/datatypes/PathOps.inl:234-327", "src/common/datatypes/DataSetOps.inl:161-212"]}
{"id": "C156", "title": "The size announced for an answer is enough for it", "statement": "The size announced for the answer to a query or to a login, and for each part of a plan, is at least the number of bytes that write produces, and at most ten times that number, whichever optional members are present, below 4 GiB.", "quantifier": "all answers, all combinations of members, plans of any size", "why_tests_cant": "Seven optional members, lists of nodes and tables of any size combine without bound.", "anchors": ["src/common/graph/ExecutionResponseOps.inl:322-364", "src/common/graph/AuthResponseOps.inl:225-297", "src/common/graph/PlanNodeDescriptionOps.inl:290-376", "src/common/graph/PlanDescriptionOps.inl:213-268", "src/common/graph/ProfilingStatsOps.inl:214-278"]}
{"id": "C157", "title": "What is given to a pool is deleted once", "statement": "Whatever the threads that use an object pool do and in whatever order: no addition is lost, each object is deleted exactly once, by a clear() or with the pool, in the order of the additions; every call ends.", "quantifier": "any number of threads, all programs of calls, all schedules", "why_tests_cant": "Schedules are unbounded; a lost addition or a double deletion shows in few of them.", "anchors": ["src/common/base/ObjectPool.h:23-73"]}
{"id": "C158", "title": "The default values of a schema can be used as long as the schema is held", "statement": "Of the expressions made by the loads of the meta client, those exist that the caches in place own, each owned once; and the default values of a schema that was taken from the cache can be used as long as the schema is held.", "quantifier": "all sequences of completed and failed loads, all schemas with any columns and default values", "why_tests_cant": "Loads happen in the background at any time; the use of a deleted expression need not show.", "anchors": ["src/common/clients/meta/MetaClient.cpp:191-300", "src/common/clients/meta/MetaClient.cpp:326-434", "src/common/clients/meta/MetaClient.h:60-72", "src/common/meta/NebulaSchemaProvider.h:20-80", "src/common/base/ObjectPool.h:23-73"]}
{"id": "C159", "title": "The memory mark is hit at the given part of the memory", "statement": "The kilobytes used are what is neither free nor in buffers and never wrap around; hitsHighWatermark is true exactly if more than the given part of the memory is used, and stays true as more is used.", "quantifier": "all contents of sysinfo, all ratios", "why_tests_cant": "The numbers come from the machine a test runs on, and rounding in single precision matters for few of them.", "anchors": ["src/common/base/Memory.h:20-50", "src/common/base/Memory.cpp:15-31"]}
{"id": "C160", "title": "A thread has the name it was given, and its own id", "statement": "A thread has the name it was given, cut to 15 bytes; a Nominator's name holds to its end, whatever happens in between, and then the name is the one before; no thread changes another's name; gettid gives the id of the calling thread.", "quantifier": "any number of threads and processes, all programs and schedules, all names", "why_tests_cant": "What happens inside a scope and between threads is unbounded.", "anchors": ["src/common/thread/NamedThread.h:21-75", "src/common/thread/NamedThread.cpp:11-38"]}
{"id": "C161", "title": "A temporary file is new, and gone at the end", "statement": "A temporary file or directory is made where nothing was, under a name from the template, and nothing else changes; when the object ends, what it made is gone with all that was put into it, and nothing else.", "quantifier": "all trees of files, templates, random draws, working directories, and contents put into the directory meanwhile", "why_tests_cant": "Trees are unbounded, and a test does not see what is removed elsewhere.", "anchors": ["src/common/fs/TempFile.cpp:12-36", "src/common/fs/TempFile.h:17-43", "src/common/fs/TempDir.cpp:12-39", "src/common/fs/TempDir.h:16-48"]}
{"id": "C162", "title": "The locks of the meta client never block each other", "statement": "Whatever the background thread loads and whatever any number of other threads ask the meta client meanwhile, also from callbacks of the listener, no thread waits for ever for a lock: every execution ends with all calls done and all locks released, and no thread waits for the meta server while it holds a lock.", "quantifier": "all numbers of threads, all sequences of calls and loads, all callbacks, all interleavings", "why_tests_cant": "A deadlock needs a particular interleaving of particular calls; tests run few of them.", "anchors": ["src/common/clients/meta/MetaClient.cpp:118-299", "src/common/clients/meta/MetaClient.cpp:840-1030", "src/common/clients/meta/MetaClient.cpp:2320-2371", "src/common/clients/meta/MetaClient.cpp:3107-3227", "src/common/clients/meta/MetaClient.h:192-201", "src/common/clients/meta/MetaClient.h:681-693"]}
{"id": "C163", "title": "What the threads of the meta client share is not accessed while it is written", "statement": "A lock held for writing is held by nobody else, and in no state of any execution are two threads about to access the same member of the meta client of which one writes it.", "quantifier": "all numbers of threads, all sequences of calls and loads, all callbacks, all interleavings", "why_tests_cant": "Data races have no effect in most runs, and need a particular interleaving to show.", "anchors": ["src/common/clients/meta/MetaClient.cpp:144-299", "src/common/clients/meta/MetaClient.cpp:436-517", "src/common/clients/meta/MetaClient.cpp:2155-2190", "src/common/clients/meta/MetaClient.cpp:2466-2523", "src/common/clients/meta/MetaClient.cpp:3761-3800", "src/common/clients/meta/MetaClient.h:732-786"]}
{"id": "C164", "title": "Sizes agree with what was counted", "statement": "size of a text, a list, a set, a map or a table is the number of its bytes, members, entries or rows; it adds up under +, stays under reverse, lower and upper, goes down by one under tail; a path is as long as it has relationships, has one node more, and is as long reversed; a map has one key for each entry.", "quantifier": "all values, of any size and nesting, called by name", "why_tests_cant": "These are relations between several functions over values of unbounded size.", "anchors": ["src/common/function/FunctionManager.cpp:923-992", "src/common/function/FunctionManager.cpp:1131-1155", "src/common/function/FunctionManager.cpp:1444-1482", "src/common/function/FunctionManager.cpp:1916-2036"]}
{"id": "C165", "title": "coalesce, reverse and udf_is_in pick the right members", "statement": "coalesce gives the first member that is no null, and null if there is none; reverse puts the i-th member at the i-th place from the end and undoes itself; udf_is_in is true exactly if one of the further arguments equals the first, and agrees with the IN operator.", "quantifier": "all lists and texts of any length, all argument lists", "why_tests_cant": "Lists are unbounded; agreement with IN relates two implementations for all values.", "anchors": ["src/common/function/FunctionManager.cpp:1131-1155", "src/common/function/FunctionManager.cpp:1381-1389", "src/common/function/FunctionManager.cpp:1888-1915", "src/common/expression/RelationalExpression.cpp:55-75"]}
{"id": "C166", "title": "bit_and, bit_or, bit_xor, sign and abs", "statement": "Each bit of the result depends on the same bits of the two integers as the name says; a null or empty argument gives a null or empty result, others a wrong type; an integer is its sign times its absolute value, and the sign of the opposite float is the opposite.", "quantifier": "all integers of 64 bits but the least for abs, all floats, all other values", "why_tests_cant": "2^128 pairs of integers, 2^64 floats with infinities and NaN.", "anchors": ["src/common/function/FunctionManager.cpp:272-321", "src/common/function/FunctionManager.cpp:797-822", "src/common/datatypes/Value.cpp:2677-2745"]}
{"id": "C167", "title": "cos_similarity does not depend on the order of the vectors", "statement": "cos_similarity of two vectors of the same length is the same in either order, and the same for integers and for the floats they become; an odd number of arguments and a vector of zeros give -2; an argument that is no number gives a wrong type, numbers alone always give a float.", "quantifier": "vectors of any length over all values, bit by bit", "why_tests_cant": "Rounding and the order of multiplication could make a difference in few of the vectors.", "anchors": ["src/common/function/FunctionManager.cpp:1407-1443"]}
{"id": "C168", "title": "properties, keys, tags and labels agree", "statement": "properties of a vertex has each name once, with the value of the first tag that has it; the keys of a vertex, an edge or a map are the keys of its properties; tags and labels both give the names of the tags in order.", "quantifier": "all vertices with any number of tags and properties, all edges and maps", "why_tests_cant": "Tags that share names of properties combine without bound.", "anchors": ["src/common/function/FunctionManager.cpp:1650-1704", "src/common/function/FunctionManager.cpp:1916-1955"]}
{"id": "C169", "title": "Numbers and truth values survive being written as text", "statement": "tointeger of tostring gives every integer back, toboolean of tostring every truth value, also in capital letters; no float is written like an integer; tostring gives text for numbers, truth values, texts, dates and times, null for nulls, and a wrong type for the rest.", "quantifier": "all integers of 64 bits, all floats and ways to print them, all values", "why_tests_cant": "2^64 integers, and texts of any length for toboolean.", "anchors": ["src/common/function/FunctionManager.cpp:1191-1258", "src/common/datatypes/Value.cpp:1558-1655"]}
{"id": "C170", "title": "Waiting for the meta server ends as asked, and can be stopped", "statement": "waitForMetadReady makes the first attempt and at most count repetitions, without limit for -1, stops at the first success, and starts the background thread in either case; a stop from another thread at any time makes it return false, starts nothing, and itself returns.", "quantifier": "all counts, all outcomes of the attempts, all interleavings of the waiting, the stopping and the background thread", "why_tests_cant": "The stop has to fall between two particular statements of the other thread, and outcomes of attempts are unbounded sequences.", "anchors": ["src/common/clients/meta/MetaClient.cpp:62-115", "src/common/clients/meta/MetaClient.h:752", "src/common/clients/meta/MetaClient.h:776-778", "src/common/thread/GenericWorker.cpp:34-86"]}
{"id": "C171", "title": "The cache answers only when it is ready", "statement": "As long as no load was answered completely, no lookup finds anything and nobody is let in, whatever parts of loads arrived; once ready the client stays ready, except that a failed heartbeat in isMetadReady takes it away; no function answers from a cache that is not ready.", "quantifier": "all sequences of attempts and rounds, all answers, complete or not, all lookups", "why_tests_cant": "Partial loads leave data behind that must not be seen; which requests of which load fail is unbounded.", "anchors": ["src/common/clients/meta/MetaClient.cpp:62-79", "src/common/clients/meta/MetaClient.cpp:118-141", "src/common/clients/meta/MetaClient.cpp:170-299", "src/common/clients/meta/MetaClient.cpp:519-548", "src/common/clients/meta/MetaClient.cpp:1200-1224", "src/common/clients/meta/MetaClient.cpp:2155-2439", "src/common/clients/meta/MetaClient.cpp:3007-3081"]}
{"id": "C172", "title": "Starting the web service", "statement": "start returns only after the server has started or failed, with exactly that outcome, and then the two port flags name the ports of the server; no wake-up is lost and the call always returns; nothing of its frame is used after it returned; a second call says whether the service runs; a service can be destroyed at any time.", "quantifier": "all interleavings of the caller and the listener thread, with and without wake-ups for nothing; all outcomes of the server; any number of calls", "why_tests_cant": "Which instructions of the two threads meet in between is up to the scheduler; a test sees a few schedules.", "anchors": ["src/common/webservice/WebService.cpp:59-169", "src/common/webservice/WebService.h:36-39"]}
{"id": "C173", "title": "An available port is free, and so is the next one", "statement": "The ports in use are exactly the local ports of the sockets in the tables of the system; the dynamic range is the one the system tells; the port returned is from 1025 on and below that range, and neither it nor the next one is in use; it is found as soon as a fitting one is drawn.", "quantifier": "all tables of sockets, with missing files; all texts of the range; all sequences of random words", "why_tests_cant": "The tables, the settings of the machine and the random generator are the environment of a test, not its input.", "anchors": ["src/common/network/NetworkUtils.cpp:89-197"]}
{"id": "C174", "title": "Network devices and host names lead to their IPv4 addresses", "statement": "A device is answered with its IPv4 address and fails exactly if it has none; all addresses of the machine are listed; a host name resolves to all its IPv4 addresses in order with the given port; the text of an address is its four bytes in order.", "quantifier": "all lists of interfaces, with several, foreign or missing addresses; all answers of the resolver", "why_tests_cant": "The interfaces and the resolver belong to the machine that runs the test.", "anchors": ["src/common/network/NetworkUtils.cpp:34-86", "src/common/network/NetworkUtils.cpp:200-238"]}
{"id": "C175", "title": "Arithmetic may be rewritten by the laws of arithmetic", "statement": "Replacing l + r by r + l, l * r by r * l, l - r by l + (-r), -(-e) by e, (p + q) + r by p + (q + r), and moving a summand to the other side of a comparison leaves the value of the expression as it is.", "quantifier": "all expressions, contexts and values of the operands: all 64-bit integers, all doubles with infinities and NaN", "why_tests_cant": "The laws fail for single values (the smallest integer, minus zero) and at overflows, where a sample is blind.", "anchors": ["src/common/datatypes/Value.cpp:1913-2290", "src/common/datatypes/Value.cpp:2419-2441", "src/common/expression/ArithmeticExpression.cpp:15-45", "src/common/expression/UnaryExpression.cpp:41-58"]}
{"id": "C176", "title": "Conditions may be rewritten by the laws of logic", "statement": "De Morgan's laws for any number of operands, double negation, flattening of nested AND and OR, and replacing a negated comparison by the opposite comparison leave the value of the condition as it is, whether it is true, false, null or empty.", "quantifier": "all expressions, contexts and operands of all types, any number of operands", "why_tests_cant": "The operands range over all values of all types in lists of any length; with nulls and empties there is no table to go through.", "anchors": ["src/common/expression/LogicalExpression.cpp:13-75", "src/common/expression/RelationalExpression.cpp:14-36", "src/common/datatypes/Value.cpp:2443-2454"]}
{"id": "C177", "title": "Concurrent calls of the LRU cache behave as if made one after the other", "statement": "Whatever threads call insert, get, contains, putIfAbsent, evict, clear and the counters at the same time, there is one order of the calls, each placed between its start and its return, in which calling them one after the other gives the same results and the same cache; no thread reads a bucket while another uses it, none waits for ever, and the capacity is never exceeded.", "quantifier": "all numbers of threads, all calls and all interleavings of their steps", "why_tests_cant": "The interleavings of any number of threads are infinitely many; a test sees the few its scheduler happens to produce.", "anchors": ["src/common/base/ConcurrentLRUCache.h:41-99", "src/common/base/ConcurrentLRUCache.h:101-155"]}
{"id": "C178", "title": "The text of a status tells its kind and its message", "statement": "After any history of making, copying and moving Status objects, an object is OK or of exactly one kind (is...() of all others is false), its text is the label of the kind followed by the message, and two objects with the same text are of the same kind and have the same message.", "quantifier": "all histories over any number of objects, all kinds and all messages below 65536 bytes", "why_tests_cant": "Messages are arbitrary byte strings, and whether two of unequal kinds can give one text is a statement about all pairs.", "anchors": ["src/common/base/Status.h:92-206", "src/common/base/Status.cpp:27-35", "src/common/base/Status.cpp:52-104"]}
{"id": "C179", "title": "The hexadecimal text of bytes tells the bytes", "statement": "toHexStr writes every byte as its two hexadecimal digits, followed by the character in brackets if it is printable, with single blanks between bytes; reading the digits gives the bytes back, so different byte strings have different texts.", "quantifier": "all byte strings", "why_tests_cant": "The brackets, blanks and closing brackets inside the text could make two strings look alike; a table of 256 entries and strings of any length cannot be gone through by examples.", "anchors": ["src/common/base/Base.cpp:11-60", "src/common/expression/Expression.cpp:111-113"]}
{"id": "C180", "title": "+ and - of texts, lists and dates join, append and count days", "statement": "Adding texts joins them in any grouping; a number or truth value is joined as it is shown; adding lists joins them, adding a value puts it at the end or at the beginning; the difference of two dates is the number of days that leads from one to the other, with the sign of their order, and a number of days on either side moves a date by as many days.", "quantifier": "all expressions and contexts, all texts, lists, values and valid dates, all numbers of days", "why_tests_cant": "Texts, lists and dates are unbounded or too many; the exceptions (a NUL inside a text, null beside a list, the end of the years) are single points.", "anchors": ["src/common/datatypes/Value.cpp:1913-2238", "src/common/datatypes/Date.cpp:23-96", "src/common/expression/ArithmeticExpression.cpp:15-45"]}
{"id": "C181", "title": "Reading a member with a dot or in brackets finds the one named", "statement": "A dot reads the member with that name: the entry of a map, the id or the property of a vertex in the first tag having it, the ends, rank, name or property of an edge, the fields of a date, time or date-time in any case of letters; brackets read the same of maps, vertices and edges; there is at most one such member, and without one the result is null or unknown; a number in brackets reads that row of a data set; the fields of an existing date make the date again.", "quantifier": "all expressions and contexts, all maps, vertices, edges, dates, times and data sets, all names and numbers", "why_tests_cant": "Names, maps and tags are unbounded; the reserved names, the order of tags and the case of letters interact in too many ways to be listed.", "anchors": ["src/common/expression/AttributeExpression.cpp:16-70", "src/common/expression/SubscriptExpression.cpp:15-94", "src/common/time/TimeUtils.h:103-124", "src/common/time/TimeUtils.h:161-172", "src/common/time/TimeUtils.h:217-230"]}
{"id": "C182", "title": "Evaluation depends only on the variables an expression mentions and changes only those it sets", "statement": "Evaluating an expression leaves the history of every variable it does not set as it was (it sets the operands of ++ and -- and the variables of its loops); two contexts and rows that answer alike to what the expression asks - the variables read outside of the loops binding them, the properties, columns, vertex and edge - give the same value or the same failure; hence an expression that asks nothing is a constant for all rows, and two expressions of which neither sets what the other reads or sets can be evaluated in either order.", "quantifier": "all expressions, contexts, histories, rows, function tables and old results", "why_tests_cant": "It speaks of all trees and of pairs of contexts and rows; a test can only run some trees in some contexts.", "anchors": ["src/common/expression/PredicateExpression.cpp:56-154", "src/common/expression/ListComprehensionExpression.cpp:12-54", "src/common/expression/ReduceExpression.cpp:12-36", "src/common/expression/UnaryExpression.cpp:43-105", "src/common/expression/VariableExpression.cpp:12-42", "src/common/expression/PropertyExpression.cpp:57-141", "src/common/context/ExpressionContext.h:24-83"]}
{"id": "C183", "title": "The text of a simple value tells which value it is", "statement": "Dates, times and date-times are printed with two digits for month, day, hour, minute and second and six for the microseconds of a time, so that the text of an existing date or time is that of no other and sorts like it (dates and date-times among years of four digits, date-times by their seconds); no two different values among null, empty, booleans, integers, strings, existing dates, times and date-times have the same text.", "quantifier": "all dates, times and date-times that exist, all integers and strings", "why_tests_cant": "That two different values never have the same text is about pairs of values out of some 2^128; a test compares a few.", "anchors": ["src/common/datatypes/Date.cpp:98-116", "src/common/datatypes/Value.cpp:1484-1554"]}
{"id": "C184", "title": "The mathematical functions take integers as doubles and agree on what they leave out", "statement": "Each of floor, ceil, round, sqrt, cbrt, exp, exp2, the logarithms and the trigonometric functions is the function of the math library of that name; an integer gives what the double of it gives, also with sign, radians, hypot, cos_similarity and pow of an integer and a double; null gives null and what is no number a bad type; sqrt is null exactly for negative numbers, a logarithm exactly for those that count as zero; pow of two integers is the power without its fraction; e() and pi() are the doubles nearest to e and pi.", "quantifier": "all names, integers, doubles (with NaN and infinities), other values and math libraries", "why_tests_cant": "There are 2^64 integers and doubles; agreement of the integer case with the double case, which are written separately for each function, is a statement about all of them; pi and e are real numbers.", "anchors": ["src/common/function/FunctionManager.cpp:322-820", "src/common/function/FunctionManager.cpp:1408-1443"]}
{"id": "C185", "title": "What a host listens to and what an index is on is answered as reported", "statement": "After a successful load, the client answers for a host exactly the listeners the meta server reported for it on parts that exist, with the replicas of each part, in agreement with the questions by space and by part; the name of an index leads to the tag or edge the index was reported to be on, as long as index ids keep their names; before the first successful load there is no answer.", "quantifier": "all histories of loads, all answers of the meta server that list nothing twice, all hosts, spaces, parts and names", "why_tests_cant": "The map for a host is collected over all spaces, hosts and parts of the cache, and must agree with three other lookups for every load; tests load one fixed answer.", "anchors": ["src/common/clients/meta/MetaClient.cpp:3027-3058", "src/common/clients/meta/MetaClient.cpp:2215-2230", "src/common/clients/meta/MetaClient.cpp:2255-2270"]}
{"id": "C186", "title": "Every complete expression whose operators meet no forbidden operand evaluates", "statement": "Evaluating a complete expression returns a value, never aborting and never running into undefined behaviour, if none of its nodes can meet operands from a short list: the remainder of the smallest integer by -1, dates with days added that leave the calendar, unhashable values in sets, a member asked for by something that is no text, casts of NaN or of texts out of range to integers, functions that fail on their arguments; and if it has no label attribute, no aggregate and no ++ on a versioned variable. What the variables hold keeps satisfying any predicate that the bound values satisfy.", "quantifier": "all environments, all expressions of any depth, all states of the expression's memory and all variable bindings", "why_tests_cant": "Expressions nest without bound and evaluate sub-expressions under loops with changing variables; that no path through all node kinds faults is a statement about all trees and values.", "anchors": ["src/common/expression/ArithmeticExpression.cpp:13-45", "src/common/expression/RelationalExpression.cpp:14-213", "src/common/expression/UnaryExpression.cpp:43-105", "src/common/expression/PredicateExpression.cpp:56-154", "src/common/expression/SubscriptExpression.cpp:15-187"]}
{"id": "C187", "title": "Evaluation gives only values that the types allow", "statement": "If the constants of an expression, the variables, the results its nodes remember and the answers of the environment are values as the types allow them at every depth (integers and ranks of 64 bits, members of dates within their fields, maps and properties with distinct keys, sets of hashable elements none of which equals one before it), then so is the value that evaluation gives, and so are the variables and remembered results afterwards.", "quantifier": "all environments with such answers, all expressions of any depth, all states, and all sequences of evaluations", "why_tests_cant": "Values are built by every operator and nest without bound; that none of them, in any combination and after any former evaluation, lets an out-of-range integer or a duplicate slip through is a statement about all of them.", "anchors": ["src/common/datatypes/Value.cpp:1558-1654", "src/common/datatypes/Date.h:20-146", "src/common/expression/ContainerExpression.cpp:52-220", "src/common/expression/PathBuildExpression.cpp:14-100", "src/common/expression/SubscriptExpression.cpp:15-187"]}
{"id": "C188", "title": "Functions give only values that the types allow", "statement": "Called with values as the types of the code allow them, at every depth (64-bit integers, members of dates and times within their fields, distinct keys of maps, hashable and distinct members of sets, 32-bit edge types), every registered function that returns gives such a value: no integer wider than 64 bits, no date or time whose members do not fit, no map with a key twice, no path with an edge type out of range. Evaluation of any expression calling these functions therefore gives only such values.", "quantifier": "all functions of the table, all argument lists, all random draws, zone offsets and results of the text and math libraries, all expressions and variable bindings", "why_tests_cant": "There are 84 functions over values of any size and nesting; that none of them constructs a value outside the types is a statement about all arguments, draws and clock readings.", "anchors": ["src/common/function/FunctionManager.cpp:270-2108", "src/common/time/TimeUtils.cpp:20-171", "src/common/time/TimeUtils.h:57-191", "src/common/datatypes/Path.cpp:17-27"]}
{"id": "C189", "title": "What evaluation gives arrives as it was", "statement": "The value that evaluating an expression gives, and what it leaves in the variables, is read back by the receiver of the wire format exactly as it was and to the last byte, whatever the expression computed, if its texts and containers have fewer than 2^31 elements and its edge types say only the direction. (Without the last condition two edges can become one.)", "quantifier": "all expressions, environments, variable bindings and results", "why_tests_cant": "The values reaching the serializer are whatever expressions compute; that none of them falls outside what the wire format can carry is a statement about all expressions and all values.", "anchors": ["src/common/datatypes/ValueOps.inl", "src/common/datatypes/SetOps.inl", "src/common/datatypes/EdgeOps.inl", "src/common/expression/Expression.h:127-131"]}
{"id": "C190", "title": "Aggregates give only values that the types allow", "statement": "Whatever rows are aggregated, if they are values as the types of the code allow them at every depth, so is the value of COUNT, SUM, AVG, MAX, MIN, STD, the bitwise aggregates, COLLECT and COLLECT_SET, with and without DISTINCT: sums and counts do not wrap, and a collected set has no member twice. The rows may be what an expression gives on any variables.", "quantifier": "all aggregates, all finite sequences of rows, all expressions", "why_tests_cant": "The accumulators go through arbitrarily long sequences of rows, and the standard deviation updates four of them; that they never leave the types is an invariant over all sequences.", "anchors": ["src/common/function/AggFunctionManager.cpp:19-278", "src/common/expression/AggregateExpression.cpp:39-54"]}
{"id": "C191", "title": "Whatever bytes arrive, what is read from them is as the types allow", "statement": "If a Value is read from bytes at all, whoever wrote them, then it is a value as the types of the code allow it, at every depth (64-bit integers, members of dates within their fields, distinct keys of maps, hashable and distinct members of sets, texts and containers with fewer than 2^31 elements), also if the bytes repeat a key or a member or hold a number that is too wide. So are the constants of an expression decoded from any bytes, and what evaluating it gives. What was read can be passed on and arrives as it was, if its edge types say only the direction.", "quantifier": "all byte sequences, all values and expressions read from them, all environments", "why_tests_cant": "The bytes are chosen by the peer; nothing limits them to what the serializer of this code writes, and the readers skip, repeat and nest fields in any order.", "anchors": ["src/common/datatypes/ValueOps.inl:261-480", "src/common/datatypes/SetOps.inl:63-122", "src/common/datatypes/DateOps.inl:79-710", "src/common/expression/Expression.cpp:116-537"]}
{"id": "C192", "title": "An expression read from any bytes can be sent on", "statement": "An expression decoded from bytes that anybody wrote can be encoded again without ending the process, and decoding that encoding gives the same expression, so that further hops change nothing. Excepted are column expressions (C31), a uuid without text, a range with neither end, and constants holding edge types other than the direction.", "quantifier": "all byte sequences shorter than 2^63, all expressions read from them", "why_tests_cant": "The decoder accepts more byte sequences than the encoder writes (repeated members, numbers too wide, unknown types, bytes left over), and the trees are of any depth.", "anchors": ["src/common/expression/Expression.cpp:44-197", "src/common/expression/UUIDExpression.cpp:23-34", "src/common/expression/SubscriptExpression.cpp:226-256"]}
{"id": "C193", "title": "An expression read from any bytes fails only on the listed operands", "statement": "An expression decoded from bytes that anybody wrote evaluates, as often as wanted, to a value that the types allow, unless one of a list of operands occurs: -2^63 % -1, dates outside the calendar or pushed out of it, a value without a hash in a set, an attribute whose name is not a string, a cast to an integer of NaN or of a text with a dot whose number does not fit, a function that fails, an aggregate, exists() of something that is no attribute, a quantifier without a filter. With kinds of nodes that take none of these operands it evaluates whatever the bytes are.", "quantifier": "all byte sequences, all expressions read from them, all environments, contexts and remembered results", "why_tests_cant": "The bytes are chosen by the peer, trees are of any depth, and what the operands are depends on the context.", "anchors": ["src/common/expression/Expression.cpp:191-537", "src/common/expression/PredicateExpression.cpp:19-160", "src/common/expression/AggregateExpression.cpp:39-60", "src/common/expression/RelationalExpression.cpp:55-130"]}
