{"id": "C01", "title": "Frames survive the wire", "statement": "Encoding any well-formed protocol frame (simple/error text without CR or LF, any bulk bytes, any 64-bit integer, null, arbitrarily nested arrays) and decoding the bytes yields the same frame and consumes exactly the encoded bytes, whatever bytes follow.", "quantifier": "all well-formed frames of any nesting depth and size, all trailing bytes", "why_tests_cant": "Tests cover a few literal frames; nesting depth, bulk contents and trailing data are unbounded.", "anchors": ["component/common/src/connection/parse/frame.rs: write, parse, parse_alt, parse_bulk, parse_array, parse_int"]}
{"id": "C02", "title": "TCP segmentation is invisible", "statement": "However the byte stream is split into reads, the sequence of requests a connection sees (and whether and how it ends) is the same as if all bytes had arrived at once.", "quantifier": "all byte streams (valid or garbage) and all ways of cutting them into chunks", "why_tests_cant": "The number of ways to segment a stream is exponential; tests deliver whole requests.", "anchors": ["component/common/src/connection/mod.rs: Connection::read_frame", "component/common/src/connection/parse/frame.rs: parse"]}
{"id": "C03", "title": "Partial requests are never misread", "statement": "A strict prefix of a valid encoding produces neither a frame nor an error; once a buffer is decided (frame or error) appending bytes never changes the decision.", "quantifier": "all frames, all prefixes, all buffers and extensions", "why_tests_cant": "Requires quantifying over every cut position of every encoding.", "anchors": ["component/common/src/connection/parse/frame.rs: parse"]}
{"id": "C04", "title": "Pipelined requests are decoded one by one in order", "statement": "Concatenating the encodings of any list of frames and feeding it to a connection yields exactly these frames in this order, then a clean end of stream.", "quantifier": "all finite lists of well-formed frames", "why_tests_cant": "Unbounded pipelines; tests use one or two commands.", "anchors": ["component/common/src/connection/mod.rs: Connection::read_frame", "component/server/src/lib.rs: Handler::run"]}
{"id": "C05", "title": "Integers are printed and parsed exactly", "statement": "Every 64-bit signed integer printed in decimal by a reply is read back as the same integer by the request parser.", "quantifier": "all integers in [-2^63, 2^63)", "why_tests_cant": "2^64 values; tests sample a handful.", "anchors": ["component/common/src/connection/parse/frame.rs: write, parse_int", "component/common/src/connection/parse/mod.rs: next_int"]}
{"id": "C06", "title": "Replies are binary safe", "statement": "Whatever bytes clients stored, each reply is a single well-formed frame that a client decodes back to exactly the stored members. (False: SMEMBERS and the ZRANGE family put members into CRLF-terminated simple strings.)", "quantifier": "all stored byte strings, all reply-producing commands", "why_tests_cant": "Needs every possible member content, including embedded protocol delimiters.", "anchors": ["component/server/src/cmd/set/smembers.rs", "component/server/src/cmd/sorted_set/zrange.rs", "component/common/src/connection/parse/frame.rs: write"]}
{"id": "C07", "title": "Slot routing respects hash tags", "statement": "Every key is routed to exactly one of the 16384 slots, and two keys whose first non-empty {tag} is the same byte string are routed to the same slot.", "quantifier": "all byte-string keys", "why_tests_cant": "Keys are arbitrary byte strings; hash collisions and odd brace placements cannot be enumerated.", "anchors": ["component/db/src/lib.rs: Db::get_slot"]}
{"id": "C08", "title": "Slot routing equals the Redis Cluster rule", "statement": "For every key the slot equals CRC16/XMODEM of the Redis-Cluster hash tag modulo 16384 (an empty {} is not a tag). (False for keys whose first brace pair is empty.)", "quantifier": "all byte-string keys", "why_tests_cant": "Agreement with an external specification on all keys.", "anchors": ["component/db/src/lib.rs: Db::get_slot"]}
{"id": "C09", "title": "Sharding is invisible", "statement": "For every sequence of keyed commands the sharded database returns the same replies as one single flat map, and its contents are that map.", "quantifier": "all histories of keyed commands over all keys, all clock readings", "why_tests_cant": "Refinement over all histories and all key distributions.", "anchors": ["component/db/src/lib.rs: Db", "component/db/src/slot.rs: Slot"]}
{"id": "C10", "title": "A read returns the latest write", "statement": "After SET k v (with no or future expiry) GET k returns v until the next write to k or its expiry, no matter which commands on other keys happen in between; no other key changes.", "quantifier": "all keys, values, states, interposed command sequences and clock readings", "why_tests_cant": "Unbounded histories between write and read.", "anchors": ["component/dict/src/cmd/simple/set.rs", "component/dict/src/cmd/simple/get.rs", "component/server/src/cmd/base/set.rs", "component/server/src/cmd/base/get.rs"]}
{"id": "C11", "title": "Expiry is a sharp deadline for every command", "statement": "A key with deadline e is seen by every read command at every instant t < e and by none at any t >= e (deadline 0 = never); a write to an expired collection or counter starts from scratch without inheriting data or TTL.", "quantifier": "all keys, types, deadlines, instants and commands", "why_tests_cant": "Every instant around the deadline for every command and type.", "anchors": ["component/dict/src/lib.rs: MemDict::get, get_or_insert_with", "component/dict/src/cmd/**"]}
{"id": "C12", "title": "SET option semantics", "statement": "SET with every combination of NX/XX, EX/PX/EXAT/PXAT/KEEPTTL/none stores or refrains, sets, clears or keeps the TTL exactly as the Redis table says, and leaves all other keys alone.", "quantifier": "all states, keys, values, option combinations", "why_tests_cant": "Product of state and option space.", "anchors": ["component/dict/src/cmd/simple/set.rs: Req::apply", "component/server/src/cmd/base/set.rs"]}
{"id": "C13", "title": "SET NX/XX reports whether it stored", "statement": "Without GET, SET k v NX answers OK exactly when the value was stored and null otherwise (the classic lock idiom). (False: it always answers OK.)", "quantifier": "all states, keys and values", "why_tests_cant": "Needs the reply/state correspondence for all states.", "anchors": ["component/server/src/cmd/base/set.rs: Set::apply"]}
{"id": "C14", "title": "Expired data is never revealed or counted", "statement": "No reply depends on the value of a key that has already expired. (False for SET..GET fast path and for the DEL count.)", "quantifier": "all states, instants, commands", "why_tests_cant": "Relational property over pairs of states.", "anchors": ["component/dict/src/cmd/simple/set.rs", "component/dict/src/cmd/simple/del.rs"]}
{"id": "C15", "title": "EXPIRE option semantics", "statement": "EXPIRE/PEXPIRE/EXPIREAT/PEXPIREAT with NX/XX/GT/LT change the deadline exactly when the Redis table allows (no TTL counts as infinite), answer 1 exactly when they did, and never touch the value or other keys.", "quantifier": "all states, keys, deadlines, option combinations", "why_tests_cant": "Product of state and option space.", "anchors": ["component/dict/src/cmd/simple/expire.rs: Req::apply"]}
{"id": "C16", "title": "A deadline in the past removes the key", "statement": "After an accepted EXPIRE-family command with a deadline not in the future the key is gone; after one with a future deadline it lives exactly until then. (False at the sentinel 0: EXPIREAT k 0 makes the key persistent; and for arguments that overflow 64-bit milliseconds.)", "quantifier": "all integer arguments and clock readings", "why_tests_cant": "64-bit arithmetic edge cases.", "anchors": ["component/server/src/cmd/base/expire.rs", "component/server/src/cmd/base/expireat.rs", "component/server/src/cmd/base/pexpire.rs", "component/server/src/cmd/base/pexpireat.rs"]}
{"id": "C17", "title": "TTL agrees with visibility", "statement": "At any instant TTL/PTTL answer -2 iff EXISTS answers 0, -1 iff the key has no deadline, and otherwise the remaining milliseconds exactly (PTTL) or rounded to the nearest second (TTL), so the key survives exactly that long if untouched.", "quantifier": "all states, keys, instants", "why_tests_cant": "All deadlines and instants.", "anchors": ["component/dict/src/cmd/simple/ttl.rs", "component/server/src/cmd/base/ttl.rs", "component/server/src/cmd/base/pttl.rs"]}
{"id": "C18", "title": "INCR-family arithmetic", "statement": "INCR/INCRBY/DECR/DECRBY add exactly the requested delta to an integer value (0 if absent or expired), return the new value, keep the TTL, and fail without effect on non-integers. (Refuted part: on 64-bit overflow the code wraps instead of failing, in release builds.)", "quantifier": "all stored values, deltas in i64, states", "why_tests_cant": "Overflow corner cases in 2^128 combinations.", "anchors": ["component/dict/src/cmd/simple/incr.rs", "component/dict/src/data_type/mod.rs: TryFrom<&DataType> for i64", "component/server/src/cmd/base/incr*.rs, decr*.rs"]}
{"id": "C19", "title": "Only integers can be incremented", "statement": "INCR succeeds only when the stored string is exactly a decimal 64-bit integer. (False: any string with a decimal prefix such as 12abc is accepted.)", "quantifier": "all stored byte strings", "why_tests_cant": "All byte strings.", "anchors": ["component/dict/src/data_type/mod.rs: TryFrom<&DataType> for i64"]}
{"id": "C20", "title": "Concurrent counters lose no update", "statement": "Any interleaving of INCRBY commands on a counter from any number of clients ends at the initial value plus the sum of all deltas (modulo 2^64), and the replies are the running totals of that interleaving.", "quantifier": "all numbers of clients, all schedules, all deltas", "why_tests_cant": "Schedules cannot be enumerated.", "anchors": ["component/db/src/slot.rs: call_write", "component/dict/src/cmd/simple/incr.rs"]}
{"id": "C21", "title": "Type errors have no effect", "statement": "A command applied to a key holding another type answers with an error and leaves every key, value and deadline exactly as it was.", "quantifier": "all typed commands, all states", "why_tests_cant": "Commands x types x states.", "anchors": ["component/dict/src/cmd/**", "component/dict/src/cmd/mod.rs: Write, Read"]}
{"id": "C22", "title": "Reads have no side effects on data", "statement": "GET, EXISTS, TTL, PTTL, HGET*, HEXISTS, S*MEMBER*, LRANGE, LLEN, ZRANGE*, ZRANK, ZREVRANK, DUMP, OBJECT leave all values, deadlines and write sequence numbers unchanged.", "quantifier": "all read commands, all states", "why_tests_cant": "Commands x states.", "anchors": ["component/db/src/slot.rs: call_read", "component/dict/src/cmd/**"]}
{"id": "C23", "title": "Keys do not interfere", "statement": "A single-key command changes no value, deadline or access statistics of any other key, in any slot.", "quantifier": "all commands, all states, all other keys", "why_tests_cant": "All key pairs and states.", "anchors": ["component/dict/src/cmd/**", "component/db/src/lib.rs: Db"]}
{"id": "C24", "title": "Lists are sequences", "statement": "LPUSH/RPUSH/LPUSHX/RPUSHX/LPOP/RPOP/LLEN/LRANGE behave exactly like operations on a mathematical sequence, for every history.", "quantifier": "all command histories, all elements, all counts", "why_tests_cant": "Unbounded histories.", "anchors": ["component/dict/src/cmd/deque/*.rs", "component/server/src/cmd/list/*.rs"]}
{"id": "C25", "title": "LRANGE index semantics", "statement": "LRANGE k a b returns exactly the elements whose 0-based position lies between a and b inclusive, negative indices counting from the end, out-of-range indices clamped, in list order.", "quantifier": "all lists and all 64-bit indices", "why_tests_cant": "All index pairs x lengths.", "anchors": ["component/dict/src/data_type/deque.rs: shape", "component/dict/src/cmd/deque/range.rs"]}
{"id": "C26", "title": "Queues and stacks", "statement": "RPUSH then LPOP delivers every element exactly once in push order (FIFO); LPUSH then LPOP in reverse (LIFO); a pop of n returns min(n,len) elements and removes exactly those.", "quantifier": "all push/pop histories", "why_tests_cant": "Unbounded histories.", "anchors": ["component/dict/src/cmd/deque/push.rs", "component/dict/src/cmd/deque/pop.rs"]}
{"id": "C27", "title": "Empty collections disappear", "statement": "Removing the last element of a list, hash, set or sorted set removes the key, so EXISTS answers 0 and the key can be reused with another type. (False: empty collections stay.)", "quantifier": "all collection types and histories", "why_tests_cant": "All histories that empty a collection.", "anchors": ["component/dict/src/cmd/deque/pop.rs", "component/dict/src/cmd/kvp/del.rs", "component/dict/src/cmd/set/remove.rs", "component/dict/src/cmd/sorted_set/remove.rs"]}
{"id": "C28", "title": "Hashes are finite maps", "statement": "HSET/HSETNX/HGET/HMGET/HGETALL/HEXISTS/HDEL/HINCRBY behave exactly like a finite map from fields to values, and HSET/HDEL replies count fields added/removed (duplicates in one command counted once).", "quantifier": "all histories, fields, values", "why_tests_cant": "Unbounded histories.", "anchors": ["component/dict/src/cmd/kvp/*.rs", "component/server/src/cmd/hash/*.rs"]}
{"id": "C29", "title": "HSETNX never overwrites", "statement": "HSETNX answers 1 and stores iff the field was absent, otherwise answers 0 and leaves the hash unchanged.", "quantifier": "all states, fields, values", "why_tests_cant": "All states.", "anchors": ["component/dict/src/cmd/kvp/set.rs", "component/server/src/cmd/hash/hsetnx.rs"]}
{"id": "C30", "title": "Sets are finite sets", "statement": "SADD/SREM/SISMEMBER/SMISMEMBER/SMEMBERS behave exactly like a finite set of byte strings; SADD/SREM replies are the change in cardinality.", "quantifier": "all histories, members", "why_tests_cant": "Unbounded histories.", "anchors": ["component/dict/src/cmd/set/*.rs", "component/server/src/cmd/set/*.rs"]}
{"id": "C31", "title": "Sorted-set indexes agree", "statement": "After any history the member->score table and the score-ordered index of a sorted set describe the same members with the same scores, each member once. (Holds without INCR; refuted with ZADD INCR, which leaves ghost members.)", "quantifier": "all histories of sorted-set commands", "why_tests_cant": "Unbounded histories; the corruption shows only in later commands.", "anchors": ["component/dict/src/cmd/sorted_set/add.rs", "component/dict/src/data_type/sorted_set.rs"]}
{"id": "C32", "title": "ZADD option semantics", "statement": "ZADD with NX/XX/GT/LT updates a member exactly when the Redis table allows: NX only adds, XX only updates, GT/LT only update in that direction and never prevent adding. (Refuted part: GT/LT do prevent adding; XX on a missing key creates an empty key.)", "quantifier": "all sorted sets, scores, option combinations", "why_tests_cant": "Product space.", "anchors": ["component/dict/src/cmd/sorted_set/add.rs: Req::apply"]}
{"id": "C33", "title": "Sorted sets are ordered by score then member", "statement": "ZRANGE/ZREVRANGE by rank list members ascending/descending by (score, member), exactly the requested rank interval; ZRANK/ZREVRANK give the position in that listing; every member appears once.", "quantifier": "all sorted sets reachable without INCR/NaN, all index pairs", "why_tests_cant": "All sets x index pairs.", "anchors": ["component/dict/src/cmd/sorted_set/range_by_rank.rs", "component/dict/src/cmd/sorted_set/rank.rs", "component/dict/src/cmd/sorted_set/mod.rs: shape_rank"]}
{"id": "C34", "title": "ZRANGEBYSCORE is exact", "statement": "ZRANGEBYSCORE returns exactly the members whose score lies in the interval, in order, honouring ( exclusive bounds. (Refuted for upper bounds where adding 0.1 is absorbed, e.g. +inf or 1e17: members at the bound are lost.) ZREVRANGEBYSCORE and ZRANGE ... BYSCORE REV name the upper bound first and list the same members from the other end.", "quantifier": "all sorted sets and all pairs of float bounds", "why_tests_cant": "All doubles.", "anchors": ["component/dict/src/cmd/sorted_set/range_by_score.rs", "component/dict/src/cmd/sorted_set/mod.rs: bigger_range", "component/server/src/cmd/sorted_set"]}
{"id": "C35", "title": "No request can crash its handler", "statement": "Every syntactically valid command gets a reply; no argument makes the server task panic. (False: ZRANGEBYSCORE/ZRANGEBYLEX/ZREMRANGEBY* with min > max, NaN scores, and non-ASCII lex/score bounds.)", "quantifier": "all requests, all states", "why_tests_cant": "All argument combinations.", "anchors": ["component/dict/src/cmd/sorted_set/*.rs", "component/common/src/options/range_cmd_order.rs", "component/common/src/float.rs"]}
{"id": "C36", "title": "ZRANGEBYLEX is exact on equal scores", "statement": "When all members have the same score, ZRANGEBYLEX returns exactly the members in the lexicographic interval, in byte order.", "quantifier": "all equal-score sorted sets, all bounds with min <= max", "why_tests_cant": "All byte-string bounds.", "anchors": ["component/dict/src/cmd/sorted_set/range_by_lex.rs", "component/common/src/options/range_cmd_order.rs: parse_lex_bound"]}
{"id": "C37", "title": "ZREMRANGE removes what ZRANGE shows", "statement": "ZREMRANGEBYRANK/SCORE/LEX remove exactly the members the corresponding ZRANGE query returns, answer their number, and leave all others with their scores.", "quantifier": "all sorted sets reachable without INCR/NaN, all ranges", "why_tests_cant": "All sets x ranges.", "anchors": ["component/dict/src/cmd/sorted_set/remove_by_*.rs"]}
{"id": "C38", "title": "LIMIT is a window", "statement": "LIMIT offset count returns the count elements after skipping offset of the unlimited answer (negative count: all remaining).", "quantifier": "all sorted sets, ranges, offsets, counts", "why_tests_cant": "Product space.", "anchors": ["component/dict/src/cmd/sorted_set/mod.rs: shape_limit"]}
{"id": "C39", "title": "DUMP/RESTORE round-trips every value", "statement": "RESTORE with a payload produced by DUMP recreates an equal value of every type, with the requested TTL.", "quantifier": "all values of all types, all iteration orders of hash tables", "why_tests_cant": "Unbounded value space.", "anchors": ["component/dict/src/cmd/server/dump.rs", "component/dict/src/cmd/server/restore.rs", "component/dict/src/data_type/mod.rs"]}
{"id": "C40", "title": "RESTORE protects existing keys", "statement": "RESTORE without REPLACE on a live key fails with BUSYKEY and changes nothing; a malformed payload fails and changes nothing.", "quantifier": "all states, keys, payload bytes", "why_tests_cant": "All payloads.", "anchors": ["component/dict/src/cmd/server/restore.rs: Req::apply"]}
{"id": "C41", "title": "Access statistics are faithful", "statement": "OBJECT IDLETIME is the time since the last access to within 10 seconds, OBJECT FREQ stays in 0..65535, and neither OBJECT nor TTL counts as an access.", "quantifier": "all access histories and clock readings below 2^32*10s", "why_tests_cant": "All histories and instants.", "anchors": ["component/dict/src/lib.rs: Value::update_visit_log, create_visit_log", "component/server/src/cmd/others/object.rs"]}
{"id": "C42", "title": "Access frequency decays by one per minute", "statement": "On an access the frequency first drops by the whole minutes elapsed since the previous access and then grows by one. (Refuted when the 16-bit minute counter wraps, every 45.5 days: the frequency is reset.)", "quantifier": "all access histories", "why_tests_cant": "Only visible at a specific wall-clock wrap.", "anchors": ["component/dict/src/lib.rs: Value::update_visit_log, get_min"]}
{"id": "C43", "title": "Background expiry never deletes live data", "statement": "Whatever the interleaving of commands, expiration messages (also delayed or reordered) and purge runs, the purge never removes or alters a key that is alive.", "quantifier": "all schedules of writers, message delivery and purge, all clocks", "why_tests_cant": "Schedules.", "anchors": ["component/db/src/expire.rs: purge_expired_keys, recv_task, scan_all"]}
{"id": "C44", "title": "Expired data is eventually purged", "statement": "A key whose deadline has passed and that is not touched is eventually removed from memory by the purge task. (False: the purge looks the key up through the expiry filter and never removes it.)", "quantifier": "all states and purge schedules", "why_tests_cant": "Liveness over infinite schedules.", "anchors": ["component/db/src/expire.rs: purge_expired_keys", "component/dict/src/lib.rs: MemDict::get"]}
{"id": "C45", "title": "Every deadline is tracked", "statement": "With in-order message delivery, after all messages are processed every key with a deadline later than the last purge is present in the expiry queue with that deadline. A scan of the queue ends, changes no data and leaves, of the entries it was given, exactly those whose key is visible with that deadline.", "quantifier": "all histories of writes, purges, flushes", "why_tests_cant": "Histories.", "anchors": ["component/db/src/expire.rs", "component/db/src/slot.rs: call_expires_write", "component/dict/src/cmd/simple/{set,expire,del}.rs", "component/dict/src/cmd/server/restore.rs"]}
{"id": "C46", "title": "The purge task never oversleeps", "statement": "Whenever the purge task is asleep until time w (or indefinitely), no queued deadline is earlier than w unless a wake-up is already pending.", "quantifier": "all interleavings of message processing and purge", "why_tests_cant": "Lost wake-ups appear only under rare schedules.", "anchors": ["component/db/src/expire.rs: purge_expired_task, recv_task"]}
{"id": "C47", "title": "Concurrent expiry updates stay tracked", "statement": "The tracking property also holds when notifications of concurrent writers are delivered in a different order than the writes. (False: messages are sent after the slot lock is released.)", "quantifier": "all schedules of two or more writers", "why_tests_cant": "Races.", "anchors": ["component/db/src/slot.rs: call_expires_write", "component/db/src/expire.rs: recv_task"]}
{"id": "C48", "title": "Followers hold a prefix of the leader history", "statement": "Under any loss, duplication, reordering of forwarded commands, a follower slot always equals the leader slot after some prefix of its writes, the one given by its sequence number; it never applies a command twice, out of order, or skips one.", "quantifier": "all leader histories, all delivery schedules", "why_tests_cant": "Network schedules.", "anchors": ["component/db/src/slot/replica_update.rs", "component/db/src/pd_handle/replica.rs: process_cmd", "component/db/src/slot.rs: call_write"]}
{"id": "C49", "title": "Gaps are detected", "statement": "If a follower misses a command, the next command it receives for that slot makes it request a snapshot, and after installing it the follower equals the leader at the snapshot.", "quantifier": "all histories and gaps", "why_tests_cant": "Network schedules.", "anchors": ["component/db/src/slot/replica_update.rs", "component/db/src/pd_handle/replica.rs"]}
{"id": "C50", "title": "FLUSHALL reaches followers", "statement": "After FLUSHALL on the leader and delivery of all later messages, followers hold the leader's data. (False: not forwarded and the sequence number restarts at 0, so later writes are ignored as old.)", "quantifier": "all histories containing FLUSHALL", "why_tests_cant": "Distributed history.", "anchors": ["component/db/src/slot.rs: flush", "component/db/src/slot/replica_update.rs"]}
{"id": "C51", "title": "RESTORE reaches followers", "statement": "After RESTORE on the leader and delivery of the forwarded message a follower equals the leader. (False: it is forwarded as a no-op.)", "quantifier": "all histories containing RESTORE", "why_tests_cant": "Distributed history.", "anchors": ["component/dict/src/cmd/server/restore.rs: From<Req> for WriteCmd", "component/db/src/slot/replica_update.rs: process_forward"]}
{"id": "C52", "title": "Replication is independent of clock skew", "statement": "A follower that applied all forwarded commands equals the leader even if it applies them later. (False: INCR, SADD, ... re-evaluate expiry with the follower's clock; true when both clocks fall on the same side of all deadlines.)", "quantifier": "all histories, all application times", "why_tests_cant": "Time x history.", "anchors": ["component/db/src/slot/replica_update.rs", "component/dict/src/lib.rs: get_or_insert_with"]}
{"id": "C53", "title": "Snapshots arrive intact", "statement": "The byte stream sent for a snapshot is decoded by the follower into the same slots with the same contents. (False: the slot number is sent as Option<usize> (9 bytes) but read as Option<u16> (3 bytes).)", "quantifier": "all databases", "why_tests_cant": "Cross-process byte formats; no test runs leader and follower together.", "anchors": ["component/server/src/cmd/syncsnapshot.rs", "component/db/src/pd_handle/replica.rs: sync_snapshot_without_lock"]}
{"id": "C54", "title": "Resyncing one slot does not stall others", "statement": "After a single-slot resync completes, no other slot stays locked against replication. (False: the code locks every slot and unlocks only the transferred one.)", "quantifier": "all slots, all sequences of resyncs", "why_tests_cant": "Protocol-state histories.", "anchors": ["component/db/src/pd_handle/replica.rs: lock_slot, sync_snapshot, wait_slot"]}
{"id": "C55", "title": "Forwarded commands survive serialization", "statement": "Every forwarded message decodes on the follower to exactly the command sent, for every command and argument; a concatenation of messages decodes to the same sequence.", "quantifier": "all write commands and arguments, all message sequences", "why_tests_cant": "Unbounded value space.", "anchors": ["component/db/src/forward/message.rs", "component/db/src/forward/connection.rs", "component/dict/src/cmd/mod.rs: WriteCmd"]}
{"id": "C56", "title": "Every connected follower gets every message in order", "statement": "The fan-out delivers each forwarded message once, in channel order, to every follower connection that has not failed, and a failed connection does not disturb the others.", "quantifier": "all message sequences, all failure patterns", "why_tests_cant": "Failure schedules.", "anchors": ["component/db/src/forward/mod.rs", "component/db/src/forward/connection.rs: push_all"]}
{"id": "C57", "title": "At most one leader per group", "statement": "In the placement driver's state at most one server per group has the leader role, after any sequence of group creations, joins, heartbeats and survival checks; and the advertised leader address is that server's.", "quantifier": "all event histories and clock readings", "why_tests_cant": "Histories.", "anchors": ["component/pd/src/status.rs"]}
{"id": "C58", "title": "Identifiers are never reused", "statement": "Group ids are unique, and server ids are unique within their group, over the whole history.", "quantifier": "all event histories", "why_tests_cant": "Histories.", "anchors": ["component/pd/src/status.rs: create_group, server_init"]}
{"id": "C59", "title": "Failover elects the oldest live follower", "statement": "A survival check replaces a leader exactly when its last heartbeat is older than the timeout, and then promotes the live follower with the smallest join time, if any; nothing else changes.", "quantifier": "all states and clock readings", "why_tests_cant": "All group configurations.", "anchors": ["component/pd/src/status.rs: server_survival_check"]}
{"id": "C60", "title": "No split brain", "statement": "If every server heartbeats and applies the answers, at most one server of a group believes to be leader once answers are processed. (False: the first leader never adopts its id, heartbeats as server 0 of group 0, is declared dead, and never learns of its successor.)", "quantifier": "all schedules of joins, heartbeats and checks", "why_tests_cant": "Distributed schedules.", "anchors": ["component/db/src/pd_handle/mod.rs: update_status, heartbeat", "component/pd/src/status.rs"]}
{"id": "C61", "title": "Heartbeats converge", "statement": "A follower whose heartbeat is answered and processed has exactly the driver's view (id, group, role, leader), and an unchanged view is answered with nothing.", "quantifier": "all driver states and reported states", "why_tests_cant": "State product.", "anchors": ["component/pd/src/status.rs: server_heartbeat", "component/db/src/pd_handle/mod.rs: update_status"]}
{"id": "C62", "title": "Connection limit", "statement": "At no time are more than max_connections handlers alive, and every finished handler (also a panicking one) frees its slot; no permit is ever lost or duplicated.", "quantifier": "all schedules of accept, finish, panic", "why_tests_cant": "Schedules.", "anchors": ["component/server/src/limit.rs", "component/server/src/lib.rs: Listener::run"]}
{"id": "C63", "title": "Command lookup ignores case, arguments are complete", "statement": "Command and option names are matched case-insensitively (ASCII), and a request with missing or surplus arguments is rejected without touching the data. (Refuted part: one surplus argument after trailing options is silently accepted, e.g. SET k v junk.)", "quantifier": "all requests", "why_tests_cant": "All argument lists.", "anchors": ["component/server/src/cmd/mod.rs: Command::from_frame", "component/macros/src/parse_frames.rs", "component/common/src/connection/parse/mod.rs: finish"]}
{"id": "C64", "title": "Option order is irrelevant", "statement": "SET options given in any order mean the same; of repeated or conflicting options the last one wins.", "quantifier": "all permutations of options", "why_tests_cant": "Permutations x arguments.", "anchors": ["component/macros/src/parse_frames.rs", "component/common/src/options/*.rs"]}
{"id": "C65", "title": "One reply per request, in order", "statement": "For every pipelined byte stream the connection emits exactly one reply per executed request in request order; after a protocol or syntax error it executes nothing more.", "quantifier": "all byte streams, all database states", "why_tests_cant": "Unbounded streams.", "anchors": ["component/server/src/lib.rs: Handler::run"]}
{"id": "C66", "title": "No deadlock between commands, purge and snapshots", "statement": "Command execution, expiry message processing, purge, flush and snapshot never deadlock on the slot and expiry-queue locks.", "quantifier": "all interleavings of any number of tasks", "why_tests_cant": "Deadlocks need precise schedules.", "anchors": ["component/db/src/expire.rs", "component/db/src/slot.rs", "component/server/src/cmd/syncsnapshot.rs"]}
{"id": "C67", "title": "FLUSHALL empties the database", "statement": "After FLUSHALL every key in every slot is absent and stays absent until written again.", "quantifier": "all states", "why_tests_cant": "All states.", "anchors": ["component/db/src/lib.rs: flushall", "component/db/src/slot.rs: flush"]}
{"id": "C68", "title": "HINCRBY arithmetic", "statement": "HINCRBY adds the delta to an integer field (0 if absent), returns the new value, leaves the other fields alone, and fails without effect on non-integers. (On overflow it wraps in release builds.)", "quantifier": "all hashes, fields, deltas", "why_tests_cant": "All values.", "anchors": ["component/dict/src/cmd/kvp/incr.rs"]}
{"id": "C69", "title": "Multi-key commands decompose", "statement": "DEL and EXISTS on n keys equal n single-key commands executed in order, their reply the sum, also when other clients run in between.", "quantifier": "all key lists, all interleavings", "why_tests_cant": "Schedules.", "anchors": ["component/server/src/cmd/base/del.rs", "component/server/src/cmd/base/exists.rs"]}
{"id": "C70", "title": "Write sequence numbers are gap-free", "statement": "Each write command on a slot, successful or not, consumes exactly the next sequence number and is forwarded once with it; reads consume none.", "quantifier": "all histories between flushes", "why_tests_cant": "Histories.", "anchors": ["component/db/src/slot.rs: call_write, call_expires_write"]}
{"id": "C71", "title": "Forwarded commands are applied in the order received", "statement": "Over any number of changes of leader, the follower hands the commands of a channel to process_forward in the order in which they were received. (False: every change of leader adds a task and all tasks share the newest channel.)", "quantifier": "all executions of receivers, tasks and transfers", "why_tests_cant": "Schedules.", "anchors": ["component/db/src/pd_handle/replica.rs: process_cmd, sync_cmd", "component/db/src/pd_handle/mod.rs: update_status"]}
{"id": "C72", "title": "A completed snapshot wakes every task that waits for it", "statement": "Once no transfer is under way and none has failed, no task waits for a slot that is unlocked. (False: notify_one wakes one of several tasks.)", "quantifier": "all executions, all streams", "why_tests_cant": "Schedules.", "anchors": ["component/db/src/pd_handle/replica.rs: wait_slot, sync_snapshot_without_lock"]}
{"id": "C73", "title": "The old leader has no influence after a change", "statement": "After promotion or a change of leader no command of the former leader is applied. (False: a task blocked in recv_async applies one more.)", "quantifier": "all executions after the change", "why_tests_cant": "Schedules.", "anchors": ["component/db/src/pd_handle/replica.rs: process_cmd, close_sync_cmd", "component/db/src/pd_handle/mod.rs: update_status"]}
{"id": "C74", "title": "The applying tasks wait when there is nothing to apply", "statement": "From any state the tasks that apply forwarded commands come to rest by themselves. (False: when the connection to the leader has ended, recv_async fails at once and the task spins.)", "quantifier": "all states, all schedules", "why_tests_cant": "Unbounded schedules.", "anchors": ["component/db/src/pd_handle/replica.rs: process_cmd"]}
{"id": "C75", "title": "Concurrent requests take effect one at a time", "statement": "For any number of connections and any interleaving there is one order of the requests, respecting the order in which requests were answered and sent, such that executing them one at a time gives the same database and the same replies. (False for EXISTS and DEL with several keys and for FLUSHALL.) EXISTS and DEL of several keys are the requests for the single keys, one after the other, in such an order.", "quantifier": "all numbers of connections, all requests, all interleavings, all clock readings", "why_tests_cant": "Schedules.", "anchors": ["component/server/src/lib.rs: Handler::run", "component/db/src/slot.rs: call_write, call_expires_write, call_read", "component/db/src/lib.rs: flushall"]}
{"id": "C76", "title": "The forward channel is in sequence order", "statement": "The messages of a slot enter the forward channel in the order of their sequence numbers, without loss or duplication. (The order is false with two connections: the message is sent after the lock is released.)", "quantifier": "all numbers of connections, all requests but FLUSHALL, all interleavings", "why_tests_cant": "Schedules.", "anchors": ["component/db/src/slot.rs: call_write, call_expires_write"]}
{"id": "C77", "title": "Driver and servers understand each other", "statement": "Every request to join and every heartbeat reaches the driver as it was sent, and its answer the server, however the bytes are segmented; an honest server never loses its heartbeat task to a reply it cannot read. (False for the scope id of an IPv6 address.)", "quantifier": "all statuses, all driver states reached by fewer than 2^64 - 1 inputs, all segmentations, all following bytes", "why_tests_cant": "Unbounded segmentations and values.", "anchors": ["component/pd/src/connect.rs: Handle::run", "component/pd/src/cmd.rs", "component/db/src/pd_handle/mod.rs: init, read_bytes, heartbeat", "component/common/src/pd_message.rs"]}
{"id": "C78", "title": "Nothing that is sent to the driver can break it", "statement": "Whatever frames arrive, over whatever connections and between whatever checks, ids stay distinct, no group gets two leaders and an advertised leader is a member; a frame that is not one of the three messages changes nothing; every array gets one answer and the connection goes on.", "quantifier": "all frames, all sequences of inputs and checks, all segmentations", "why_tests_cant": "Unbounded adversarial input.", "anchors": ["component/pd/src/connect.rs: Handle::run, apply_frame", "component/pd/src/cmd.rs", "component/pd/src/status.rs"]}
{"id": "C79", "title": "The driver can be restarted", "statement": "After a restart of the driver the running servers are managed again and a group keeps a single leader. (False: nothing is stored, no server reconnects, and ids are given out again.)", "quantifier": "all states before the restart, all executions after it", "why_tests_cant": "Unbounded executions.", "anchors": ["component/pd/src/status.rs: PD_STATUS", "component/db/src/pd_handle/mod.rs: init, heartbeat"]}
{"id": "C80", "title": "A snapshot of any size reaches the follower", "statement": "Whatever the size of a snapshot and the pace of the network, the follower receives all of it. (False: the child process writes to a non-blocking socket and gives up when the send buffer is full.)", "quantifier": "all streams, all divisions into writes, all buffer sizes, all paces of the network", "why_tests_cant": "Depends on buffer sizes and timing.", "anchors": ["component/server/src/cmd/syncsnapshot.rs: SyncSnapshot::apply", "component/db/src/pd_handle/replica.rs: sync_snapshot_without_lock"]}
{"id": "C81", "title": "The process table lists the running snapshot processes", "statement": "At every moment the table holds the processes that were entered and not yet waited for. (False when a process is waited for before it is entered, or is killed by a signal.)", "quantifier": "all interleavings of forks, entries, ends and turns of the waiting loop", "why_tests_cant": "Schedules.", "anchors": ["component/db/src/child_process.rs: loop_status, add", "component/server/src/cmd/syncsnapshot.rs: SyncSnapshot::apply"]}
{"id": "C82", "title": "What a score range returns, for every interval", "statement": "ZRANGEBYSCORE on a non-empty sorted set panics exactly when the interval is reversed by more than the 0.1 added to its upper end; otherwise it returns, in order, the members above the lower bound and below the upper one, where members scored exactly at an inclusive upper bound below -2^50 or from 2^50 on are left out unless their name is empty. ZREMRANGEBYSCORE removes and returns the same members.", "quantifier": "all sorted sets without NaN, all intervals with numbers as bounds, all limits", "why_tests_cant": "All binary64 numbers.", "anchors": ["component/dict/src/cmd/sorted_set/mod.rs: bigger_range", "component/dict/src/cmd/sorted_set/range_by_score.rs", "component/dict/src/cmd/sorted_set/remove_by_score_range.rs"]}
{"id": "C83", "title": "The tree of a sorted set is always ordered", "statement": "Whatever commands were executed, ZADD INCR, NaN scores, RESTORE and panics included, the tree of every sorted set is strictly increasing, without duplicates, and a NaN is in it only as the single element; without panics and RESTORE every member of the hash has a node in the tree.", "quantifier": "all histories of commands, all keys", "why_tests_cant": "Unbounded histories.", "anchors": ["component/dict/src/cmd/sorted_set/add.rs", "component/dict/src/cmd/sorted_set/remove.rs", "component/dict/src/cmd/sorted_set/remove_by_rank_range.rs", "component/dict/src/data_type/sorted_set.rs"]}
{"id": "C84", "title": "Which commands panic", "statement": "On sorted sets with agreeing indexes a command panics exactly when it is a range by score over a non-empty set with a NaN bound or reversed by more than 0.1, a range by name over a non-empty set with reversed or equal and excluded bounds, or a ZADD that writes a NaN next to another member. A set emptied by removals counts as non-empty for a ZRANGEBYSCORE reversed by more than 0.1.", "quantifier": "all histories without ZADD INCR, NaN scores and RESTORE, then any command but ZADD INCR and RESTORE", "why_tests_cant": "All states and arguments.", "anchors": ["component/dict/src/cmd/sorted_set/*.rs", "component/common/src/float.rs"]}
{"id": "C85", "title": "The slot of every key", "statement": "A key whose first brace pair is empty goes to slot 0; every other key goes to the slot of Redis Cluster.", "quantifier": "all keys", "why_tests_cant": "All byte strings.", "anchors": ["component/db/src/lib.rs: Db::get_slot"]}
{"id": "C86", "title": "EXPIRE with every combination of options", "statement": "Whether EXPIRE sets the deadline is given by a table in NX/XX, GT/LT and the present deadline; the table differs from that of Redis only for NX with GT or LT and for XX with LT, on keys without deadline.", "quantifier": "all keys, states, deadlines and options", "why_tests_cant": "All combinations with all values.", "anchors": ["component/dict/src/cmd/simple/expire.rs"]}
{"id": "C87", "title": "Which stored values INCR and HINCRBY take for numbers", "statement": "A text counts as the number given by an optional sign and the longest run of digits after it, if that fits 64 bits, whatever follows; a sign alone counts as 0; the sum wraps. Other texts are refused and nothing changes.", "quantifier": "all texts, all increments", "why_tests_cant": "All byte strings.", "anchors": ["component/dict/src/cmd/simple/incr.rs", "component/dict/src/cmd/kvp/incr.rs"]}
{"id": "C88", "title": "ZADD with every combination of options", "statement": "Whether a pair is written is given by a table in NX/XX, GT/LT and the present score; it differs from Redis only where GT or LT without XX meets a missing member. The reply counts members before and after and pairs written.", "quantifier": "all sorted sets without NaN, all lists of pairs, all options", "why_tests_cant": "All combinations with all values.", "anchors": ["component/dict/src/cmd/sorted_set/add.rs"]}
{"id": "C89", "title": "The access frequency between any two instants", "statement": "An access at minute m1 after one at minute m0 with frequency f gives min(65535, max(0, f - (m1 - m0)) + 1), or 1 if m1 < m0, minutes counted modulo 65536.", "quantifier": "all instants, all commands on other keys in between", "why_tests_cant": "All pairs of instants.", "anchors": ["component/dict/src/lib.rs: Value::update_visit_log"]}
{"id": "C90", "title": "What a slot forwards in any history", "statement": "A slot forwards exactly the writes that did not panic, in order, each with the number of its position among all writes of the slot (modulo 2^64); reads and writes to other slots send nothing for it.", "quantifier": "all histories, all slots, all initial counters", "why_tests_cant": "Unbounded histories.", "anchors": ["component/db/src/slot.rs: call_write, call_expires_write"]}
{"id": "C91", "title": "Answers are determined by what is stored", "statement": "Two databases that store the same data under every key answer every command alike. (False: the tree of a sorted set emptied by removals keeps a root, so that a reversed ZRANGEBYSCORE panics on it and not on one that never had members.)", "quantifier": "all histories of commands", "why_tests_cant": "The difference is invisible in the data; needs the same state reached in two ways.", "anchors": ["component/dict/src/cmd/sorted_set/range_by_score.rs", "component/dict/src/cmd/sorted_set/remove.rs"]}
{"id": "C92", "title": "Every command line becomes the request it names", "statement": "For each of the 45 commands without options a line is accepted exactly when its arguments have the shape of that command, and is then exactly that request; ZADD, ZRANGEBYSCORE, ZRANGEBYLEX, ZREVRANGE, RESTORE and FLUSHALL are read with any legal sequence of their options; every other name is answered as unknown; nothing but PING and arrays beginning with a text is a request.", "quantifier": "all frames, all commands, all spellings of the names, all sequences of options", "why_tests_cant": "All argument lists.", "anchors": ["component/server/src/cmd/mod.rs: Command::from_frame", "component/server/src/cmd/*/*.rs: parse_frames", "component/common/src/connection/parse/mod.rs"]}
{"id": "C93", "title": "List requests do what they mean", "statement": "LPUSH, RPUSH, LPUSHX, RPUSHX, LPOP, RPOP, LLEN and LRANGE, as sent by a client while others are connected, turn the visible list into the list the specification says, keep its deadline, reply what it says and touch no other key. (LPOP and RPOP always reply with an array; a list that becomes empty stays.)", "quantifier": "all states, clocks, other activity, keys, elements, counts and indexes", "why_tests_cant": "All states and arguments through all layers.", "anchors": ["component/server/src/cmd/list/*.rs", "component/dict/src/cmd/deque/*.rs", "component/dict/src/data_type/deque.rs"]}
{"id": "C94", "title": "Hash requests do what they mean", "statement": "HSET, HSETNX, HDEL, HINCRBY, HGET, HMGET, HGETALL and HEXISTS turn the visible map into the map the specification says, keep its deadline, reply what it says (HGETALL: in some order) and touch no other key.", "quantifier": "all states, clocks, other activity, keys, fields, values, orders of the hash table", "why_tests_cant": "All states and arguments through all layers.", "anchors": ["component/server/src/cmd/hash/*.rs", "component/dict/src/cmd/kvp/*.rs"]}
{"id": "C95", "title": "Set requests do what they mean", "statement": "SADD, SREM, SISMEMBER, SMISMEMBER and SMEMBERS turn the visible set into the set the specification says, keep its deadline, reply what it says (SMEMBERS: in some order) and touch no other key.", "quantifier": "all states, clocks, other activity, keys, members, orders of the hash table", "why_tests_cant": "All states and arguments through all layers.", "anchors": ["component/server/src/cmd/set/*.rs", "component/dict/src/cmd/set/*.rs"]}
{"id": "C96", "title": "Sorted set requests do what they mean", "statement": "ZRANGE and its eight relatives list, and the three ZREMRANGE remove and count, exactly the members that the texts of the bounds select from the members ordered by score and name; ZREM, ZRANK, ZREVRANK and ZADD without INCR change and reply what the specification says; no other key is touched.", "quantifier": "all sorted sets without NaN, clocks, other activity, texts of bounds that denote regular intervals (by name: equal scores), options", "why_tests_cant": "All states and arguments through all layers.", "anchors": ["component/server/src/cmd/sorted_set/*.rs", "component/server/src/cmd/options/range_cmd_order.rs", "component/dict/src/cmd/sorted_set/*.rs"]}
{"id": "C97", "title": "String, counter and deadline requests do what they mean", "statement": "GET, SETEX, PSETEX, INCR, DECR, INCRBY, DECRBY, EXPIRE, PEXPIRE, EXPIREAT and PEXPIREAT leave the value and deadline the specification says (64-bit arithmetic), reply what it says and touch no other key.", "quantifier": "all states, clocks, other activity, keys, values, amounts, times and options", "why_tests_cant": "All states and arguments through all layers.", "anchors": ["component/server/src/cmd/simple/*.rs", "component/server/src/cmd/base/*.rs", "component/dict/src/cmd/simple/*.rs"]}
{"id": "C98", "title": "A request for another type is refused", "statement": "Each of the 43 requests that work on one type of value, sent for a visible value of another type, is answered with the WRONGTYPE error, and the value, its deadline and all other keys stay as they are.", "quantifier": "all states, clocks, other activity, requests whose bounds can be read", "why_tests_cant": "All pairs of request and stored type.", "anchors": ["component/server/src/cmd/*/*.rs", "component/dict/src/cmd/*/*.rs"]}
{"id": "C99", "title": "The other requests do what they mean", "statement": "PING, INFO, CONFIG, DEBUG, unknown commands, EXISTS, DEL, FLUSHALL, DUMP and RESTORE reply and change what the specification says: DUMP replies with a payload that denotes the value, RESTORE stores what the payload denotes with the deadline asked for, or refuses with BUSYKEY or the decoder error and changes nothing.", "quantifier": "all states, clocks, other activity, payloads and options", "why_tests_cant": "All states and arguments through all layers.", "anchors": ["component/server/src/cmd/others/*.rs", "component/server/src/cmd/server/*.rs", "component/dict/src/cmd/server/*.rs"]}
{"id": "C100", "title": "What the wire reader accepts", "statement": "The frame reader returns a frame exactly when the bytes begin with an encoding of it by the grammar of the protocol (as this reader understands numbers), asks for more exactly when they are a proper beginning of one, refuses them exactly when no continuation can become one; a connection delivers exactly the decomposition of its stream.", "quantifier": "all byte strings, all nesting depths", "why_tests_cant": "All byte strings.", "anchors": ["component/common/src/connection/parse/frame.rs", "component/common/src/connection/mod.rs"]}
{"id": "C101", "title": "Which texts count as UTF-8", "statement": "A text argument is accepted exactly when it is a sequence of encodings of Unicode scalar values (no surrogates, no overlong forms, nothing above 10FFFF).", "quantifier": "all byte strings", "why_tests_cant": "All byte strings.", "anchors": ["component/common/src/connection/parse/frame.rs: TryFrom<Frame> for &str, to_lowercase_str"]}
{"id": "C102", "title": "What number a text of a score is", "statement": "A text is accepted as a score exactly when it is an optional sign followed by inf, infinity or nan in any case, or by digits with an optional point and exponent; the score is the binary64 number nearest to the decimal one, ties to even, overflow to infinity, whatever the number of digits.", "quantifier": "all texts, all numbers of digits and exponents", "why_tests_cant": "Unbounded digits; ties are never hit by chance.", "anchors": ["component/common/src/connection/parse/frame.rs: TryFrom<Frame> for Float", "component/common/src/options/range_cmd_order.rs", "component/common/src/float.rs"]}
{"id": "C103", "title": "The purge task comes to rest", "statement": "Left alone, the task that purges expired keys takes finitely many steps and then waits, for a notification or for its timer; then the queue holds exactly the entries it held that are not due, and the task sleeps no longer than until the first of them.", "quantifier": "all states, all executions with a clock that never steps back", "why_tests_cant": "Unbounded queues and executions.", "anchors": ["component/db/src/expire.rs: purge_expired_task, purge_expired_keys"]}
{"id": "C104", "title": "What the leader sends as a snapshot", "statement": "A request for a slot is answered with that slot, a request for slot 16384 with all slots in order, other numbers are out of bounds; the bytes sent determine the slots and everything in them.", "quantifier": "all databases, all slot numbers, all orders of the hash table", "why_tests_cant": "All states.", "anchors": ["component/server/src/cmd/syncsnapshot.rs: SyncSnapshot::apply"]}
{"id": "C105", "title": "A server that is not heard of loses its role", "statement": "A server whose connection to the driver broke is never heard of again; a server not heard of for more than three seconds is not leader after the next check. (Hence the first leader of every group is deposed although it sends heartbeats, and goes on believing to be leader.)", "quantifier": "all executions of driver and servers", "why_tests_cant": "Schedules and clocks.", "anchors": ["component/db/src/pd_handle/mod.rs: heartbeat, update_status", "component/pd/src/status.rs: server_survival_check"]}
{"id": "C106", "title": "The listener when accepting fails", "statement": "After n failures in a row the listener waits 2^(n-1) seconds and tries again, a success resets the waiting time, and it gives up at the eighth failure in a row (the comment says the sixth) or when the server is shut down; open connections and free permits are not affected by failures.", "quantifier": "all executions of listener and connections", "why_tests_cant": "Sequences of failures of the operating system.", "anchors": ["component/server/src/lib.rs: Listener::run, Listener::accept"]}
{"id": "C107", "title": "Whole conversations are explained by a store of keys", "statement": "For every sequence of requests, sent by one client as bytes in any packets or by any number of clients whose requests interleave in any way, there is one sequence of requests on a mathematical store of keys with values and deadlines that yields every reply and what the database shows at the end; time only removes keys whose deadline has passed. It holds for every request the store explains; those of C93 to C99 always, (EXISTS and DEL of several keys as the requests for the single keys at successive instants, the reply being the sum), except SYNCSNAPSHOT, FLUSHALL among several clients, DUMP of huge values, RESTORE of invalid payloads that panic, ZADD INCR, NaN, and interval queries with irregular bounds.", "quantifier": "all conversations, packets, interleavings, keys, values, clocks that do not step back", "why_tests_cant": "Unbounded conversations through all layers.", "anchors": ["component/server/src/lib.rs: Handler::run", "component/server/src/cmd/*.rs", "component/db/src/*.rs", "component/dict/src/*.rs", "component/common/src/connection/*.rs"]}
{"id": "C108", "title": "What can reach a follower", "statement": "A server that gets its data from leaders only (snapshots of everything on hearing of a leader, then forwarded commands) never holds a key outside slot 0, whatever the leaders hold and write; and if every leader that answered had written to slot 0 before, it never holds any key at all. (So replication copies nothing: the format of snapshots is misread, and slots that were not read stay locked.)", "quantifier": "all executions of all tasks and transfers of the follower, any number of leaders, all answers of leaders with fewer than 65536 writes and keys in slot 0, cut off anywhere; second part: sequence numbers below 2^48", "why_tests_cant": "Unbounded executions, schedules, and contents of leaders.", "anchors": ["component/db/src/pd_handle/replica.rs", "component/db/src/pd_handle/mod.rs: update_status", "component/server/src/cmd/syncsnapshot.rs"]}
{"id": "C109", "title": "Sorted sets as they are: two indexes", "statement": "A sorted set is a book (one recorded node per member) and an ordered list of nodes (which queries show). ZADD drops the recorded node, records the given one and shows it, or with INCR shows the sum with the recorded score; ZREM and the ZREMRANGE commands delete from the book and drop nodes; queries select positions, scores or (within the lowest score) names from the list; a handler dies exactly when a NaN has to be compared with a listed node or an interval over a list that is not empty is upside down. Every history of sorted set commands on a key, and every request about it with well-formed texts, with any options, intervals and scores, does and answers exactly this; every sorted set that any history stores is of this form. Without RESTORE the node recorded for a member carries its name (false with a forged RESTORE payload).", "quantifier": "all histories, states, scores (NaN and infinities), options (INCR, NX, XX, GT, LT, CH), intervals, LIMITs, other activity", "why_tests_cant": "Unbounded histories; all states in which the two indexes disagree.", "anchors": ["component/dict/src/data_type/sorted_set/mod.rs", "component/dict/src/cmd/sorted_set/*.rs", "component/server/src/cmd/sorted_set/*.rs"]}
{"id": "C110", "title": "The whole server is a machine on a store of keys", "statement": "Every request in every state does exactly what a machine on a store of keys (value and deadline each) says, unreadable bounds, sorted sets whose indexes disagree, NaN scores, requests without arguments and dying handlers included: it leads to the machine's next store, and is answered with a reply the machine allows or ends its connection where the machine says so. Hence whatever bytes arrive in whatever packets on a connection, the requests in them are dealt with one after the other as the machine says, until a frame that is no request or a request that kills the handler; and whatever the interleaving of many clients, one sequence of machine steps, in each client's order, explains all replies and the database.", "quantifier": "all requests (any RESTORE payload included; fewer than 2^63 keys each), all states, byte streams, packets, numbers of clients, schedules of clients that do not use FLUSHALL, clocks that do not step back", "why_tests_cant": "Unbounded sequences of requests, states, byte streams and interleavings.", "anchors": ["component/server/src/lib.rs:204-260", "component/server/src/cmd/**", "component/common/src/connection/**", "component/db/src/lib.rs", "component/dict/src/**"]}
{"id": "C111", "title": "FLUSHALL among other clients empties the slots one after the other, and leaves only what was stored behind it", "statement": "However many clients use whatever requests at the same time, FLUSHALL included, one sequence of deeds explains the database and all replies: a request about one key is one deed of the machine of C110, a request about several keys is one deed per key, and FLUSHALL removes the keys of slot 0, then those of slot 1, and so on, and is then answered OK; each client's deeds come in its own order, and the sequence only ever grows at its end. Once FLUSHALL has been answered, every key that is there was stored by a request that was executed after the slot of that key had been emptied.", "quantifier": "all requests (any RESTORE payload included; fewer than 2^63 keys each), all databases, numbers of clients, schedules, clocks that do not step back", "why_tests_cant": "Unbounded interleavings; a FLUSHALL has more than 16384 steps between which others act.", "anchors": ["component/db/src/lib.rs:157-168", "component/db/src/slot.rs", "component/server/src/cmd/others/flushall.rs", "component/server/src/lib.rs:163-257"]}
{"id": "C112", "title": "The background tasks of a server are one more client that only sends GETs", "statement": "Run the whole server: any number of connections, the channel of expiry messages, the task that receives them into the queue, the purge task that visits keys whose deadline has come, the scans that FLUSHALL asks for, the forwarding task. Every execution has the database (statistics included), the connections, their replies and their steps of an execution of the connections alone with one more client, who only sends GETs. So the replies and keys are explained by the machine of C110/C111 as if there were no background tasks: none of them ever changes what a key holds, its deadline or a reply that is not about the statistics of visits. OBJECT IDLETIME and FREQ do notice them.", "quantifier": "all requests (for the second part: fewer than 2^63 keys per request; the numbers that OBJECT answers are left open there), all databases, numbers of clients, schedules of connections and tasks, clocks that do not step back", "why_tests_cant": "Unbounded interleavings of clients, timers and background tasks.", "anchors": ["component/db/src/lib.rs:32-72", "component/db/src/lib.rs:157-168", "component/db/src/expire.rs", "component/server/src/lib.rs:143-257"]}
{"id": "C113", "title": "From the bytes that arrive to the bytes that are sent", "statement": "Run the whole process: connections are accepted, bytes arrive in pieces of any size on any of them, clients close their side, reading or writing fails at any point, handlers read, execute, reply and are dropped, background tasks run, all interleaved in any way. One sequence of deeds of the machine of C110/C111 explains the bytes sent to every client by the bytes that the clients have sent: they are the written replies to the requests that the bytes encode, in order (cut short only if the network failed). When a handler waits for its client, everything that arrived completely has been answered. A handler ends by itself only if the client closed, sent something that is no request, or the network failed. From every moment, any handler on its own gets to the point where it waits or ends; nothing that others are in the midst of can block it. No more than the configured number of handlers is at work.", "quantifier": "all byte streams and their segmentations (requests with fewer than 2^63 keys), all databases, numbers of connections, limits, schedules, failures of the network, clocks that do not step back", "why_tests_cant": "Unbounded interleavings, segmentations and failure points.", "anchors": ["component/server/src/lib.rs", "component/server/src/limit.rs", "component/common/src/connection/mod.rs", "component/db/src/lib.rs", "component/db/src/expire.rs"]}
{"id": "C114", "title": "Collections inside lists and hashes", "statement": "Nothing but RESTORE puts a collection inside a list or a hash: as long as no RESTORE payload holds one, whatever arrives on a connection stores none. Whatever payload RESTORE accepts, nested to any depth, is stored as it is, and the payload that DUMP then answers restores the same value under any key of any database. Such an element is shown as the error 'type not support' in its place in the reply, the other elements as usual; HINCRBY refuses it with WRONGTYPE and changes nothing. A payload of 12n+16 bytes is enough to nest n levels.", "quantifier": "all byte streams and segmentations, all payloads, databases, nestings, keys, fields, ranges, clocks", "why_tests_cant": "Unbounded nesting and payloads; the project's tests never restore such a payload.", "anchors": ["component/dict/src/data_type/mod.rs:17-113", "component/dict/src/cmd/server/restore.rs", "component/server/src/frame_parse.rs:13-22", "component/dict/src/cmd/kvp/incr.rs"]}
{"id": "C115", "title": "Background expiry in a server with clients", "statement": "In every execution of the whole server that starts empty (any connections, requests, interleavings of connections, receive task, purge task, scans and forwarding): the data, the expiry queue, its channel, the stored wake-up and the purge task evolve as in the transition system of C43-C47. Hence the purge task, asleep with no wake-up on its way, sleeps past no queued deadline, and waits without a deadline only if the queue is empty; a background task removes a key only if its deadline lies ahead but an earlier reading of the clock had reached it, so nothing with a clock that does not step back; if no write overtakes a notification about its slot (in particular with one client), then once everything is delivered every stored deadline later than what the background tasks have compared with the clock is queued. Every FLUSHALL is followed by exactly one scan. With two clients a deadline can be missing from the queue for good.", "quantifier": "all requests, numbers of connections, schedules and clocks; all byte streams and failures of the network for the process around it", "why_tests_cant": "Unbounded interleavings of clients and background tasks.", "anchors": ["component/db/src/expire.rs", "component/db/src/slot.rs", "component/db/src/lib.rs", "component/server/src/lib.rs"]}
{"id": "C116", "title": "A write is an access", "statement": "Every write but RESTORE, whether it succeeds or fails, counts as exactly one access if the key is visible afterwards: the recorded instant is that of the write to within ten seconds until the next access. A key that a command creates has frequency 5, and so has every key after an unconditional SET. For every other pair of accesses in a row, reads or writes, the frequency loses the minutes in between (counted modulo 65536; reset to 1 if the count went back) and gains one.", "quantifier": "all commands, databases, instants and silent or unrelated commands in between", "why_tests_cant": "All pairs of commands at all instants.", "anchors": ["component/dict/src/lib.rs: new_visit_log, update_visit_log, get, get_or_insert_with", "component/dict/src/cmd"]}
{"id": "C117", "title": "Clients, server and process when the clock steps back", "statement": "Any number of connections with any requests (DEL and EXISTS of several keys taken apart, FLUSHALL by slots), with any readings of the clock, in particular one that steps back: the replies and the data, expired keys included, are those of a single machine on a store of keys that executes the requests one at a time, each on what is visible at its reading of the clock. What has expired stays in the store until a request stores or deletes there: SET and its siblings, RESTORE and EXPIRE may store something that has already expired, DEL deletes and counts also what has expired, and every other request leaves it alone; so it is visible again once the clock has stepped back before its deadline. For a whole server with its background tasks, and for a whole process from the bytes that arrive on its sockets to those that it sends, the same holds with one more client, the background, which sends GETs and DELs of one key.", "quantifier": "all numbers of connections, request sequences, byte streams, network failures, interleavings, background steps and readings of the clock", "why_tests_cant": "Unbounded interleavings, and clocks that step back at any point.", "anchors": ["component/dict/src/lib.rs: get, get_or_insert_with", "component/dict/src/cmd", "component/common/src/lib.rs: now_timestamp_ms", "component/server/src/cmd", "component/db/src/expire.rs", "component/server/src/lib.rs", "component/common/src/connection/mod.rs"]}
{"id": "C118", "title": "A client whose keys nobody else changes is served as if it were alone", "statement": "Let client i speak only about keys of a set K, and let no other client change a key of K or send FLUSHALL; the others may look at keys of K and do as they like with all other keys, i may send FLUSHALL. Then in every execution the replies to client i, and what is stored under the keys of K, are those of a machine that is given the requests of client i only. This holds for connections with any readings of the clock (expired entries included), for a whole server with its background tasks while the clock does not step back, and for a whole process from the bytes that arrive on its sockets to those it sends.", "quantifier": "all numbers of clients, request sequences, byte streams, key sets, interleavings, background steps and network failures", "why_tests_cant": "Unbounded interleavings with arbitrary other clients.", "anchors": ["component/db/src/lib.rs: get_slot", "component/dict/src/lib.rs", "component/dict/src/cmd", "component/server/src/cmd", "component/server/src/lib.rs"]}
{"id": "C119", "title": "Clients can share a list as a queue", "statement": "Let no client use a list key in another way than to push elements to it (LPUSH, RPUSH), to pop elements from it (LPOP, RPOP, with any counts) or to look at it; with other keys they may do as they like, but nobody sends FLUSHALL. In every execution of the server with its background tasks, once no request is being executed, the elements that were in the list at first and those pushed are, each as often as it occurs, exactly the elements in the replies to the pops and those in the list: none is lost and none handed out twice. If all push at the right end and pop at the left, there is an order of the requests that keeps the order of each client's requests, explains all replies, and in which the elements are handed out in the order in which they were pushed; this holds also while requests are being executed.", "quantifier": "all numbers of clients, request sequences, keys, elements, counts, interleavings and background steps, while the clock does not step back", "why_tests_cant": "Unbounded interleavings of producers and consumers with arbitrary other clients.", "anchors": ["component/dict/src/cmd/deque/push.rs", "component/dict/src/cmd/deque/pop.rs", "component/server/src/cmd", "component/server/src/lib.rs"]}
{"id": "C120", "title": "Clients can use a field of a hash as a lock", "statement": "Let a hash key have no deadline and lack a field, or not exist, and let no client use the key in another way than to send HSETNX of that field (with any value) or to look at it; with other keys they may do as they like, but nobody sends FLUSHALL. In every execution of the server with its background tasks, once no request is being executed: if any HSETNX of the field has been sent, exactly one of all those is answered with 1, and the field is there; if none has been sent, the field is still absent.", "quantifier": "all numbers of clients, request sequences, keys, fields, values, interleavings and background steps, while the clock does not step back", "why_tests_cant": "A race: two winners may appear in one interleaving among very many.", "anchors": ["component/dict/src/cmd/kvp/set.rs", "component/server/src/cmd/hash/hsetnx.rs", "component/server/src/lib.rs", "component/db/src/lib.rs"]}
