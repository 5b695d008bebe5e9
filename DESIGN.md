# Formal model of rudis in Rocq (Coq 8.16.1)

Source: liangyongrui/rudis, read as text in /repo, never built or run.
Everything below lives in `rocq/theories/`, namespace `Verif`.

## 1. Shape of the development

| layer | model file | code modelled |
|---|---|---|
| bytes, decimal text | `Bytes.v`, `Text.v` | byte strings, `i64::to_string`, `atoi::atoi::<i64>`, lower-casing, UTF-8 validity, `str::parse` of `i64` and `f64` |
| floats | `F64.v` | `common/src/float.rs` (IEEE binary64 through the standard library's `SpecFloat`) |
| values | `Types.v` | `DataType`, `Value`, option enums, request structs |
| dictionary | `Dict.v` | `MemDict`, the `Dict` trait, the access log (`update_visit_log` & co.) |
| commands | `CmdSimple.v`, `CmdKvp.v`, `CmdSet.v`, `CmdDeque.v`, `CmdZset.v`, `CmdServer.v` | every `apply` in `dict/src/cmd` |
| one dispatcher | `Cmd.v` | `WriteCmd`, read requests, one step over a dictionary |
| wire | `Frame.v` | RESP reader/writer, `Connection::read_frame` |
| requests | `Request.v` | `Parse`, the `ParseFrames` derive macro, option parsers, `Command::from_frame` |
| database | `Db.v` | `Db::get_slot`, CRC16/XMODEM, `Slot::call_*`, `replace_dict`, flush |
| server | `Server.v` | every `apply` in `server/src/cmd`, `Handler::run` |
| expiry | `Expire.v` | `db/src/expire.rs` and all senders of its messages, as a transition system |
| binary format | `Bincode.v`, `Forward.v` | bincode 1.3 fixint encoding of values, dictionaries, forwarded commands, messages |
| the whole process: accept loop, sockets, reading, server | `Process.v` | `server/src/lib.rs`, `connection/mod.rs` with `Limit.v`, `Frame.v`, `Leader.v` |
| the whole server: connections and background tasks | `Leader.v` | `db/src/lib.rs:32-72`, `157-168` with `Clients.v` and `Expire.v` |
| connections at the same time | `Clients.v` | `server/src/lib.rs` (handlers as interleaved tasks), `slot.rs` (lock and send) |
| replication | `Replica.v`, `Snapshot.v`, `Follower.v`, `Tasks.v`, `FanOut.v` | `slot/replica_update.rs`, `syncsnapshot.rs`, `pd_handle/replica.rs`, `forward/*` |
| process that sends a snapshot | `Child.v` | `server/src/cmd/syncsnapshot.rs` (writing), `db/src/child_process.rs` |
| placement driver | `Pd.v` | `pd/src/status.rs`, `pd_handle/mod.rs` |
| messages between servers and driver, its connections, its restart | `PdWire.v` | `pd/src/connect.rs`, `pd/src/cmd.rs`, `common/src/pd_message.rs`, `pd_handle/mod.rs` |
| root of an emptied `BTreeSet` | `Btree.v` | `range_by_score.rs`, std `BTreeMap::range` |
| connections, locks | `Limit.v`, `Locks.v` | connection semaphore and accept loop; lock programs of every task |

Model files contain only definitions, each with a comment citing file and lines.
Lemmas live in `*Facts.v`; specifications independent of the model in `Spec*.v`;
the claimed theorems in `Prop*.v`, each `exact`-ing a lemma, followed by
`Print Assumptions` and an `Example` showing that the hypotheses are met.

Conventions

* A method on `&mut self` returns the new value.  A panic is an explicit outcome `OPanic`
  that also carries the state left behind by unwinding.
* `u64`/`i64` arithmetic that can overflow is written with an explicit wrap
  (release profile: overflow checks off). Where a debug build would panic the comment says so.
* The clock is an argument. One slot operation reads one instant; a request that samples the
  clock while building its arguments gets a separate instant. No monotonicity is assumed unless a theorem says so.
* Hash-table iteration order is an oracle (a permutation); no theorem depends on a particular order.
* `f64::to_string` (shortest decimal text) and the text of bincode's errors are arguments (oracles) of the server model;
  float comparison, addition and `str::parse::<f64>` (correctly rounded) are modelled exactly.

## 2. Trusted base

* Coq 8.16.1 kernel (including `vm_compute`, used in examples and witnesses).
* Axioms: see section 5 (what `Print Assumptions` prints for each theorem).
* The reading of the Rust code: the model is hand-written; comments cite the lines.
* Library behaviour modelled from its documentation, not verified: nom 7 streaming combinators, atoi 2.0,
  bincode 1.3 (fixint, little endian, trailing bytes allowed in `deserialize`), `BTreeSet` (ordered set; `range`
  panics on inverted bounds), `HashMap`/`HashSet` (finite maps), crc 3.0 CRC_16_XMODEM, tokio `Notify`/`Semaphore`,
  flume channels (FIFO per sender), parking_lot mutexes.
* Not modelled: memory and CPU limits, stack overflow on deeply nested arrays, socket errors except as
  nondeterministic connection failures, `fork`, tracing, configuration loading, key-dictionary helpers, CLI binaries.

## 3. Plan per property

(Full statements in `properties.jsonl`; status and theorem names in `MANIFEST.json`.)

* C01, C03, C04, C05 - `Frame.v`: `parse : bytes -> result` and `write : frame -> bytes`. Round trip by induction on
  frames; stability under extension by induction on fuel; prefix case from both.
* C02 - `read_all` over a list of chunks against a one-shot decoder; induction over chunks using stability.
* C06 - witness (SMEMBERS with CRLF) plus positive theorem for all bulk replies.
* C07, C08 - `get_slot` against a declarative tag specification (first `{`, next `}`); witness `{}`.
* C09, C23 - refinement of `Db` (slot -> dict) to one flat dict; frame lemma for every command.
* C10-C20 - `CmdSimple.v` against a specification over `live : dict -> time -> key -> option (data * deadline)`.
* C21-C23 - one theorem over the dispatcher `Cmd.v` for all commands.
* C24-C30, C68 - per type refinement to lists, `gmap`, `gset`.
* C31-C38 - sorted sets: invariant, order, rank/score/lex specification by filtering the sorted member list; witnesses.
* C39, C40, C55 - `Bincode.v` round trips for every permutation of hash-table entries.
* C41, C42 - bit-field lemmas with division/modulo; witness at the 16-bit wrap.
* C43-C47 - `Expire.v` transition system; invariants over all event lists; witnesses.
* C48-C54, C56 - `Replica.v` transition system with lossy, duplicating, reordering network; witnesses.
* C57-C61 - `Pd.v` invariants over event lists; two-server witness for split brain.
* C71-C74 - `Tasks.v`: conservation of messages, invariants over all event lists, a measure; witnesses with two tasks.
* C75, C76 - `Clients.v`: simulation of the interleaved connections by a serial execution that grows at its end (the
  linearization point of a request is its critical section); witnesses for the requests that visit several slots.
* C34 - Flocq: binary64 addition of 0.1 over the reals (`TenthFacts.v`), then a case analysis of `BTreeSet::range`.
* C77-C79 - `PdWire.v`: codec lemmas and the frame reader's segmentation theorem; driver invariant over arbitrary input;
  counting argument for the range of ids; witness executions across a restart.
* C80, C81 - `Child.v`: `write_all` on a non-blocking socket against every pace of the network; invariant of the process table.
* C82-C90 - what the code does where it differs from Redis, for every input: tables and closed formulas
  (`PropScore.v`, `PropExact.v`), the panicking commands (`PropPanic.v`), the tree invariant that survives ZADD INCR,
  NaN, RESTORE and panics (`PropTree.v`).
* C91 - `Btree.v`: ghost set of emptied trees, refinement of the plain model, equivalence with a condition on histories.
* C92 - `SpecLine.v`: a table of argument shapes for the commands without options, and for the others the meaning of
  a sequence of options; every line is accepted exactly when it fits and is then the request of the table (`PropLine.v`).
* C93-C99 - `SpecMeaning.v`: for each request the value before, the value after and the reply, over lists, maps and
  sets; proved for `serve_request` with arbitrary activity of other connections (`PropMeaning.v`). Numbers as texts: `SpecText.v`.
* C100 - `SpecGrammar.v`: the grammar of frames as an inductive relation, the proper beginnings and the hopeless inputs;
  the reader decides exactly these three (`PropGrammar.v`).
* C101, C102 - `SpecText.v` (UTF-8 by scalar values), `SpecNumber.v` (texts of numbers; rounding stated over the reals with
  Flocq's `round`); both directions (`PropText.v`, through `NumberFacts.v`, `RoundFacts.v`).
* C103 - a measure on the queue, the permit and the program counter of the purge task (`PropRest.v`).
* C104 - the slots sent and injectivity of the stream (`PropSent.v`).  C105 - invariant of the driver's record of a mute
  server (`PropSilence.v`).
* C106 - the failures in a row as a function of the events; invariant of the listener (`PropAccept.v`).
* C107 - `SpecTalk.v`: a machine on stores of keys (values and deadlines) with one rule per request and outcome; simulation by
  the server (`PropTalk.v`), composed with the wire (C04, C65) and with the serialisation of several clients (C75).  Requests about several keys are taken
  apart first (`SpecParts.v`): a simulation of every connection by one that sends the parts (`PropParts.v`).
* C108 - invariant of the follower over executions of `Tasks.v` whose answers come from leaders (`SpecArrive.v`): all slots but 0
  stay locked and empty; slot 0 is locked or carries a sequence number of at least 2^48 (`PropArrive.v`).
* C109 - `SpecTwo.v`: a sorted set as a book and an ordered list of nodes that may disagree, with filters on lists as operations;
  simulation by the commands for every option, interval and score, panics included, then through the request layer (`PropTwo.v`).
* C110 - `SpecWhole.v`: the machine of C107 with fates (a reply or the end of the connection) and rules for everything C107 leaves
  out; every request in every orderly store has a rule, and the server takes that step (`PropWhole.v`).
* C111 - `SpecFlush.v`: deeds (a request served, or a slot emptied by FLUSHALL); invariant `clients_fine` in `FlushFacts.v` as for C75;
  on the store, `play` of C110's machine with a step that removes the keys of one slot (`PropFlush.v`).
* C112 - `Leader.v`: simulation by an execution of `Clients.v` with one more connection (`LeaderFacts.v`: a visit of the purge task or
  of a scan is exactly a GET, because the entry it took was due); `play_others` drops that client from C111's explanation again.
* C113 - `Process.v`: invariant `pr_fine` (`ProcessFacts.v`): what is behind the sockets is an execution of `Leader.v` on the requests
  read so far (more input at the end of a connection changes nothing before), and each socket has read a prefix of the frames in its bytes.
* C114 - `DecodeFacts.v`: whatever the decoder of stored data delivers fits the format, so writing and reading it again is exact
  (`codec_data`, by induction on the nesting); `serve_keeps` with "no collection" as the invariant.
* C115 - `BackFacts.v`: simulation of `Leader.v` by `Expire.v` (a connection with something to send or to flush is a thread, threads up to
  permutation), with the order of notifications and the readings of the clock carried along; the numbers of FLUSHALLs and scans by a measure.
* C116 - case analysis over the writes: the log of the key is new or has been updated once (`wapply_logged`).
* C117 - what a write leaves under its key when nothing is visible there afterwards (`wapply_leaves`), then C111's induction on a store
  that keeps what has expired (`replay`, `SpecAnytime.v`); the background as a client up to write numbers (`AnytimeFacts.v`).
* C118 - each request is about the keys it names and changes none that it only looks at (`fates_local`, `others_spare`), so from the serial
  order of C117_clients, C112_clients and C113_bytes the deeds of the other clients can be left out (`replay_alone`, `play_alone`).
* C119 - one request adds to the list what it pushes and takes from it what its reply hands out (`queue_step`), induction over the serial
  order of C112 (`queue_play`), then from the deeds to requests and replies, client by client (`client_pairs`).
* C120 - the same with the field in place of the list: HSETNX is answered with 1 exactly while the lock is free (`setnx_step`, `lock_play`).
* C62 - semaphore accounting invariant.  C66 - lock-order theorem for task programs.
* C63-C65, C69, C70, C67 - `Request.v`, `Server.v`, `Db.v`.

Properties marked "(False ...)" in `properties.jsonl` are expected to be refuted by the faithful model:
a `..._refuted` theorem with a witness, plus the strongest true part.

## 4. Known simplifications

Each is also stated at the definition it concerns.

* An element of a list or a hash is a `Types.scalar`, which includes collections (only a RESTORE payload can nest one); a
  hash, set or sorted-set index that is an element is kept as the list of its entries in the model's canonical order. The
  decoder's recursion is unlimited (`Bincode.get_elem`); the code overflows its stack on a deeply nested payload
  (C114_deep_payload: 12 bytes per level).
* One NaN (`SpecFloat`); NaN payload bits are not modelled.
* `lowercase` maps ASCII letters and the Kelvin sign, the only other character whose lower case is an ASCII text, so that
  the spellings of names and tags are exact. `str::to_lowercase` also lower-cases other letters in the name that an
  "unknown command" error repeats.
* Everywhere but in `Btree.v`, `BTreeSet::range` on an empty tree never checks its bounds. `Btree.v` adds the root that a
  tree emptied by removals keeps, and `PropBtree.v` shows that nothing else changes. With a NaN bound, or a NaN element and any bound, the search always panics.
* Parser recursion is unlimited (`Frame.v`): the code overflows its stack on deeply nested arrays.
* One slot operation reads the clock once. The code reads it up to three times (expiry check, visit log, new log).
* `share_status` is always `Some` (nothing in the code sets it to `None`).
* Overflow wraps (release profile). For an empty collection and a negative start index `shape_rank` computes `usize::MAX + 1`,
  which is 0 then.
* `Server.v` executes FLUSHALL as one step over all slots; `Expire.v` has the slot-by-slot version with its scan.
* `Server.v` lets writes to the socket succeed; a failing write ends the connection like a protocol error.
* `Process.v`: a reply leaves in one step, or a prefix of it when writing fails; otherwise a socket is the pieces that arrive.
* `Leader.v`: FLUSHALL SYNC does not wait for its scan (a superset of the executions of the code); messages to followers are only
  taken out of their channel (`Forward.v` says what becomes of them).
* `Clients.v`: a step is one critical section, one message sent or one reply written; a connection is the list of its
  requests (how they are read from bytes is `Frame.v`, `Request.v`, `Server.v`); the background tasks do not take part.
* `Follower.v`: one `process_cmd` task; `Tasks.v` has one per leader followed (a change of leader spawns another that
  shares the state), and `C71_follower_partial` shows that it refines `Follower.v` for one leader. In both `replace_dict` is
  one step (its parts are separate steps in `Expire.v`).
* `Child.v`: the send buffer is a number of bytes with a capacity, the network an arbitrary sequence of removals; EINTR
  and errors of `waitpid` other than ECHILD are left out; `waitpid` may report any process that has ended.
* `FanOut.v`: `flume` receive inside `select!` is taken as cancel safe.
* `Pd.v`: addresses are numbers; ids and times do not overflow.
* `PdWire.v`: an address is a number below 2^48 (IPv4) or 2^48 plus address, port and, above 2^144, flow label and
  scope id (serde writes neither of the two); the text of error replies is a parameter `txt`; the driver handles one
  frame at a time (the global lock of `status.rs`); the events on several connections are one sequence (`devent`), or
  for one connection what the others do in between (`oth`).  `restart` keeps the servers' processes, ends their
  heartbeat tasks and empties the driver.
* `Limit.v`: tokio's semaphore is a counter; a handler is its existence.
* `Locks.v`: only lock operations; channels are unbounded, no lock is held across an `await`; two mutexes that are never
  held together with another one are left out.

## 5. Axioms per theorem

Every theorem listed in `MANIFEST.json` is followed by `Print Assumptions` in its `Prop*.v` file. For each of them Coq
prints `Closed under the global context`: no axiom, neither an own one nor one of the standard library, with thirty
exceptions. `C34_all_ranges`, `C34_all_removals`, `C34_moderate_exact`, `C34_immoderate_refuted`,
`C34_request_bounds`, `C35_exactly_when` and `C35_exactly_with_root` use Flocq's correctness of binary64 addition and division over the real numbers
(`TenthFacts.v`); `C109_runs`, `C109_requests`, `C110_key`, `C110_conversation`, `C110_bytes`, `C110_clients`,
`C111_clients`, `C111_flushall`, `C112_clients`, `C112_flushall`, `C113_bytes`, `C117_clients`, `C117_server`, `C117_bytes`, `C118_alone`, `C118_server`, `C118_bytes`, `C119_queue`, `C119_fifo` and `C120_lock` use C34's description of score ranges; `C102_float_text`, `C102_nearest` and
`C102_integer` are statements about real numbers. They rest on the standard library's axioms of the reals:
`ClassicalDedekindReals.sig_not_dec`, `ClassicalDedekindReals.sig_forall_dec`,
`FunctionalExtensionality.functional_extensionality_dep` and `Classical_Prop.classic`. Flocq itself adds none.
std++ is used for finite maps and decidable equality; it adds no axiom to any theorem.

## 6. Tests against wrong programs

`seeded/LOG.jsonl` has one line per seeded bug: the definition edited in a scratch copy, the edit, the claim it breaks,
the theorems that stopped being provable, and the theorems that were tightened when the claim's own theorems survived.
A theorem counts as failed when, with every broken proof replaced by `Admitted`, `Print Assumptions` of the theorem lists
an admitted lemma.

## 7. Tests of the model against the project's own tests

`ProjectTests.v` runs every test of `cmd_test/tests/*.rs` (52 scripts; `info` and `dump` only send) through the byte-level
model: the requests are encoded, served by `Server.connection`, the reply bytes are decoded by the frame reader and compared
with the frames that the test expects. It also runs the unit tests of `frame.rs` and of `dict/src/cmd`. All pass. These are
tests of the model's fidelity on the authors' examples, including one RESTORE payload recorded from the real program.
