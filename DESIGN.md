# Formal model of rust-ipv8 in Rocq (Coq 8.16.1): design

## 1. What is modelled and how

All library code under `/repo/rust_ipv8/src` and `/repo/rust_ipv8_in_python/src` that computes something is modelled function by
function as total Gallina functions; the concurrent parts (listen loop, worker pool) are labelled transition systems with an
arbitrary scheduler and environment. Every model definition cites the file and lines it models, and its simplifications.

Model (`rocq/theories/`):

| file | models |
|---|---|
| `Base.v` | results and panics as data (`Ok`/`Err`/`Panic`), bytes, big-endian integers |
| `Serde.v` | the serde data model and bincode 1.1 in `config().big_endian()`: writer, size counter, slice reader, `SeqAccess`, `String`, `Option`, `Vec`, enums |
| `Codec.v` | `serialization/{bits,varlen,rawend,nestedpayload,header}.rs`, `networking/address.rs`, all of `payloads/*.rs` |
| `Universe.v` | the universe of payload types: library types, primitive fields, and user structs and enums with derived serde impls |
| `Packet.v` | `serialization/mod.rs` (Packet, PacketDeserializer), `crypto/signature.rs`, `util.rs` |
| `Sha1.v` | SHA-1 (what `ring::digest` computes for `community/peer.rs`) |
| `Community.v` | `community/mod.rs`, `community/peer.rs` |
| `Network.v` | `networking/mod.rs`: the listen loop with kernel queue, edge flag, shared buffer and worker interleavings; `send` |
| `Pool.v` | several started listeners sharing rayon's global pool |
| `RayonOrder.v` | `Rayon.v` restricted to the order in which rayon's threads take jobs |
| `Rayon.v` | the same listeners on a work-stealing pool: `scope_fifo`, `spawn_fifo`, `par_iter().for_each` as jobs that threads take, split and wait for |
| `Concurrent.v` | `lib.rs`: `IPv8::new` step by step on any number of threads, with the `Once`, rayon's global pool, descriptors and their owners |
| `World.v` | `networking/mod.rs`: any number of `NetworkSender`s and `NetworkReceiver`s on any number of hosts, and the network between them |
| `Derive.v` | derived impls over arbitrary parts; `header.rs`, `serialization/mod.rs:20` and `signature.rs:38` (`Header`, `Packet`, `Signature` as parts of payloads) |
| `Cost.v` | `serialization/mod.rs` (`next_payload`, `peek_header`, `pop_header`) and all `Deserialize` impls: what they cost |
| `Members.v` | `community/mod.rs` again, with communities that have state, override `receive`, panic in `get_mid`; drops |
| `Equality.v` | the derived `PartialEq` impls of all value types, and of users' types |
| `PyThreads.v` | `rust_ipv8_in_python/src/borrowedbundler.rs` again, called from several Python threads under the interpreter's lock |
| `Nested.v` | rayon again, with receivers that lock mutexes and use rayon themselves (`networking/mod.rs:132-140`) |
| `Receiving.v` | `networking/mod.rs` (`listen`) and `community/mod.rs` (`forward_message`): the vectors they hold, what they copy and request |
| `Writing.v` | `serialization/mod.rs` (`Packet::new`, `Packet::add`): what they cost, and the capacity of the packet's vector |
| `Compose.v` | `lib.rs` and `networking/mod.rs`: an `IPv8` process and the sockets of all hosts: `Ipv8.v` and `World.v` at once |
| `Parallel.v` | the same with calls on several threads at once: `Concurrent.v` and `World.v` side by side |
| `Poison.v` | `lib.rs`: `Concurrent.v` with a panic while the thread pool is built, which poisons the `Once` |
| `Recursive.v` | `serialization/mod.rs` (`Packet::add`, `next_payload`): payload types that contain themselves (behind `Box`), read with a stack of given depth |
| `Parts.v` | the same calls and `NetworkReceiver`'s and `NetworkSender`'s own (`networking/mod.rs:34-51, 59-101, 146-148`, `lib.rs:32-82`), in a program that makes, takes apart and puts together the parts itself, and rayon's lazily built pool (`mod.rs:132`) |
| `Cluster.v` | `networking/mod.rs` and `lib.rs`: programs on several hosts, each with its own work-stealing pool: `World.v` and `Rayon.v` at once |
| `Ipv8.v` | `lib.rs`, `configuration.rs`: process state machine of `IPv8::new`, `start`, drop, `add_receiver`, ... |
| `PyBinding.v` | `rust_ipv8_in_python/src/borrowedbundler.rs` |
| `FixedSize.v` | `util.rs`: `as_fixed_size` for any integer or array type |

Specification, independent of the model's helpers: `Spec.v` (wire layouts, field positions, classes of types, UTF-8, two's
complement), `Sha1Spec.v` (FIPS 180-4 as a relation), `NetSpec.v`, `PoolSpec.v` (functions of traces), `CommunitySpec.v`,
`Ipv8Spec.v`, `Client.v` (programs written against the API), `EndToEndSpec.v` (the user's forwarding receiver).
`*Facts.v`, `*Proofs.v`: proofs. `Prop_*.v`: only the property theorems, each closed by `exact`, each with
`Print Assumptions`, most followed by an `Example` showing that its hypotheses are met by something non-trivial (`Prop_Witness.v` has more of them).
They are generated from `*Proofs.v` by `tools/genprops.py` and committed. `RepoTests.v` replays the assertions of the
repository's own unit tests on the model (a test of the model, not a proof).

Conventions: `&mut self` methods return the new state with the result; `Result` stays data; a panic is the value `Panic`, so
"does not panic" is a statement. Bytes are Coq's 256-element type `byte`; wider integers are `N`/`Z` with the explicit range predicate
`in_range`, because Rust's types guarantee the range (2^16, 2^32, 2^64, vectors shorter than 2^64, strings that are UTF-8).

## 2. Plan per property

"Refuted" means: the form one would expect is false of the code; a theorem proves the negation with a witness and the other
theorems of the property characterise the exact truth, which is the statement in `properties.jsonl`.

* C01-C04 header: `ser_header`/`de_header` computed on the 23-byte layout, case analysis on list length. C04 refuted.
* C05-C21 codecs: for all types of the universe, by induction on the type (`UniverseFacts.facts_all`: what a successful read
  consumed, absence of panics, round trip, serialisability, minimal size); layouts compared with `Spec.layout`. C11, C12 refuted.
* C22-C27 deserializer: totality and cursor invariants over arbitrary bytes; histories by induction on the operation list.
  C23, C25 refuted.
* C28-C38, C58 crypto: Ed25519 (crate `ring`) is an abstract record of operations; the laws assumed of it are the explicit
  hypothesis `ed25519_laws` of the theorems that need them, with a concrete (toy) instance. C34, C35 refuted.
* C39, C40 Python bindings: exact results on all inputs. C40 refuted (panics reachable from Python).
* C41-C47, C59 communities: registry refined to "last registration wins"; routing by cases on the decoded header. C45 refuted.
  C47: SHA-1 is computed in Coq and proved equal to an independent relational transcription of FIPS 180-4.
* C48-C53, C60-C63 network: invariants over all executions of the transition system. C52 refuted.
* C54-C57, C64, C65 IPv8 object: invariants over all histories of calls. C56 refuted.
* C66-C69 several listeners on one pool: projection of every interleaving to each listener (simulation), counting of busy
  workers, progress and step bound. C69 refuted.
* C70-C73 end to end: composition of C31, C42-C44, C48, C63 over all executions. C73 refuted.
* C79-C84 concurrent calls of `IPv8::new` (`Concurrent.v`): a labelled transition system with one step per observable effect; invariants over
  all interleavings for the Once, descriptor ownership and the race; rank function for termination; C83 ties it to `Ipv8.v`. C84 refuted.
* C85-C90 programs on several hosts (`World.v`): invariant relating every socket to its own events (projection to an execution of
  `Network.v`, as in C66), disjointness of open addresses; C86-C88 from the moment of delivery back to the moment of sending; C90 builds the
  execution. C87 (forged sources) and C88 (replies) refuted.
* C91-C94 communities on several hosts: composition of C85, C86, C90 with C70-C72 (the forwarding receiver is the user's, `EndToEndSpec.v`).
  C93 states unforgeability as "no forgery was ever sent", an explicit hypothesis about the execution.
* C74-C78 field types of user structs (String, bool, Option, enum, Vec, struct, signed integers): exact decoding on all bytes. C76 has
  one refuted corner (elements of no bytes).
* C95, C96 char, 128-bit integers, floats (by their bits): exact decoding on all bytes (`Utf8Facts.v`: shifts and masks of
  `char::encode_utf8` and of the decoder against the arithmetic definition of UTF-8).
* C97, C98 hand-written impls (`Custom.v`): `next_payload` for an arbitrary pair of impls; `BTreeMap` as the case in which the size of
  the decoded value differs from what was read (refuted for repeated keys; weights of replaced entries by induction over insertions).
* C99 liveness (`LivenessSpec.v`): infinite executions of the LTS of `Network.v` as two functions on nat; weak fairness stated as
  infinitely often "nothing enabled or a step taken"; proof by a rank that falls with every non-arrival step while readiness is pending,
  then C48's exactly-once lemma on the prefixes.
* C111 liveness on the shared pool (`PoolLiveSpec.v`): infinite executions of `Pool.v`; strong fairness, because a receiver can be entered only
  while a worker is free. Proved by showing that the listener is enabled again and again (a worker gets free whenever a call comes back,
  C67's counting) and then projecting on the listener (`LivenessFacts.v`: C99 for a listener observed inside a larger system).
* C109 liveness across hosts (`WorldLiveSpec.v`): infinite executions of `World.v`; the assumptions are about one socket only. Proved by
  projecting the world's execution on that socket with `LivenessFacts.v` (its events are infinitely many, so the n-th one can be computed by search:
  `Coq.Logic.ConstructiveEpsilon`, no axiom) and C99; the call after the delivery by counting (C85, C48). C110 composes it with C31, C42 and
  C100 (`OverlayLiveProofs.v`). The example execution is given for every packet that fits the buffer.
* C100-C104 Ed25519 itself (`Ed25519.v`, `Sha512.v`; specifications `EdSpec.v`, `Sha512Spec.v` (FIPS 180-4 as a relation, its constants defined as fractional parts of roots of primes); test vectors computed by the kernel in `Ed25519Tests.v`): p = 2^255-19 and the group order are proved prime
  (`EdPrime.v`: Fermat, Pocklington), the integers modulo p are a field (`EdField.v`), the curve is a group (`EdCurve.v`, with polynomial
  certificates for closure and associativity in `EdCert.v` that `ring` checks), the extended coordinates of the program represent its
  points (`Ed25519Facts.v`), L B = 0 by computation. C103 is the refutation of "accepted means signed by someone"; C108 of "only the packet sign makes is accepted"; C104: keys and signatures made are exactly those of RFC 8032, 5.1.5 and 5.1.6.
* C112, and the `_rfc8032` / `_with_the_real_signatures` theorems of C30, C37, C58, C71, C92 (`RealProofs.v`): instances of the theorems about an arbitrary scheme,
  for Ed25519 itself (C100), restated with C101 and C104 in the terms of RFC 8032. No assumption on the cryptography is left in them.
* C113 (`ReplaySpec.v`): induction over the list of copies, from one step of C90 that leaves the listener waiting and all other sockets unchanged; refutes binding
  to a recipient.
* C114 (`Spurious.v`, every step of `Network.v` plus false alarms and discarded datagrams): invariant over all such executions for what remains true; refutes
  survival of spurious readiness.
* C115-C117 (`Rayon.v`, `RayonSpec.v`): C115 is a simulation: jobs form a forest whose roots are the listeners' scopes, and the receivers in the jobs of a listener are
  those pending or running in `Pool.v`. C116: every job is waited for by one taken earlier, and on each stack later ones are on top, so the job taken last
  can always go on; a potential bounds the steps nobody sees. C117 is a refutation by an invariant over all continuations. Consequence for C69 and C111: they are about
  `Pool.v`, where any free thread may execute any waiting receiver. What a process on rayon does is one of the executions of `Pool.v` (C115), so safety carries over; that a call is
  *possible* when a thread is free (the "if" of C69_call_possible_iff), and that it is enough for C111 when some call comes back, does not (C117).
  The refutation C69 itself is also proved on the work-stealing pool, in rayon's own order of taking jobs, for every size of the pool (C69_slow_receivers_starve_on_rayon_refuted).
* C118 (`RayonLiveSpec.v`, `RayonLiveProofs.v`, `RayonServedProofs.v`): liveness on the work-stealing pool. Every worker looks for a job again and again (the sum of the ranks of its
  stack falls until it does), so every job is taken. That every job taken is finished is by induction on how many jobs may still be younger: jobs above it on the stack and
  jobs it waits for are younger, the number of jobs at any moment is bounded by the receivers of the listeners started (a potential), and while the number of jobs at least as
  old as some job does not fall, every younger one is finished. Constructive, no axiom. The bound needs that no listeners are started any more; without it the claim is refuted.
* C119, C120 (`RayonOrder.v`, `RayonOrderSpec.v`): `Rayon.v` restricted to rayon's order of preference (own deque from the back, other deques from the front, injected scopes first in first
  out). The refutations of C117 and C118 are executions of this restriction, so they are not artifacts of the freedom `Rayon.v` gives. C119: as C116, and a thread that may take a job can take
  one in this order. C120: the invariant of one thread is that its stack holds the jobs of one scope only, so scopes are served one after another; liveness from C118's argument without
  its bound on the number of listeners.
* C121 (`ErrorSpec.v`): three invariants of decoders, kept by composition and shown for all types by induction: which errors occur; an outcome other than "unexpected end" is not changed by
  more bytes; "unexpected end" is changed by some. Raw bytes before the end of a type and chars are excluded where they must be.
* C105-C107 key documents (`Pkcs8.v`: ring's DER reader and PKCS#8 parser function by function; `Pkcs8Spec.v`: DER as it is written):
  each reader is characterised by an equivalence "returns (v, rest) iff the input is the encoding of v followed by rest".
* C122 (`FixedSize.v`, `FixedSizeSpec.v`): `as_fixed_size` for integers and nested arrays of any target (byte order, alignments): induction on the type; digits in base 256.
* C123, C124 (`Cluster.v`, `ClusterSpec.v`): a step of a program's thread is a step of its pool (`Rayon.v`) and of its socket (`World.v`). C123: an invariant (what the pool and the world
  know of a listener is the same), so both projections are executions; and no step of either is blocked by the other. C124: an infinite execution of the cluster is split into an infinite
  execution of the pool of program p by dropping the steps of others (the times of p's steps are found by constructive search), where C118 applies; then back. No axiom.
* C125 (`Cost.v`, `CostSpec.v`): the decoders again with a count of steps and of bytes requested; a theorem says that without the counts they are the decoders of the other files. Bounds of the form
  "K per byte read and B in all" compose (`bounded_bind`, `bounded_vec`); growth of vectors by a potential (twice the capacity); the pass of `serialized_size` by the number of its calls.
* C126, C127 (`Derive.v`, `DeriveSpec.v`): what serde_derive makes of parts with arbitrary impls, as functions from impls to impls; three properties of impls (`measured`, `never_panics`, `consistent`)
  and `fits` of C97 are kept by each, by induction over the list of parts; `Header`, `Packet` and all types of `Universe.v` are such parts, and the derive is the same as there.
* C128 (`Writing.v`, `WritingSpec.v`): `Packet::new` and `Packet::add` with costs as in C125 and the capacity of the packet's vector; growth of that vector over any sequence of adds by a potential (twice
  the capacity).
* C129 (`Members.v`, `MembersSpec.v`): invariants over all sequences of calls: the map holds the last registration of each id; given = dropped + registered, as permutations. A theorem says that
  for communities without state it is `Community.v`.
* C130 (`Receiving.v`, `ReceivingSpec.v`): the vectors of the listener in every state of `Network.v`, by an invariant on their sizes; the cost of an execution, with a potential (the receivers still
  to be called); `forward_message` with costs.
* C131 (`Nested.v`, `NestedSpec.v`): a work-stealing pool whose jobs lock mutexes and fork; no deadlock because the job pushed last is on top of its stack, what it waits for was pushed later, and
  who holds a lock is on top and wants a greater one; every step lowers a measure by one. The refutation is an execution on three threads.
* C132 (`PyThreads.v`, `PyThreadsSpec.v`): threads that pass the interpreter's lock around; a per-thread invariant (answers so far = what the functions of `PyBinding.v` return alone; the phase is consistent with the call being made) and at most one lock holder; progress by a measure of three steps per call; background verification by adding a thread without the lock to a run of the others.
* C133 (`Equality.v`, `EqualitySpec.v`): `==` by recursion on the type, IEEE comparison of floats by their bits; mutual induction over types; with C06, C11, C12 for what is read back and for bytes.
* C134 (`CarefulSpec.v`, refuted with a remedy): the documented handler as a program against the API, exact by cases of `verify` (C23, C32, C35); the overlapping packet by C103 (the key 01 00 .. 00 with 32 zero bytes behind it is a signature valid under itself); the listener by C48, C50 and C59: a receiver that forwards a fatal packet does not return, so nothing is received any more.
* C135 (`AppendedProofs.v`): `add` after `sign` by C05 and C28; the bytes left by cases on lengths; at most one continuation by C102 (the last 32 bytes of an accepted packet are determined), values by injectivity (C11); refuted by the signature of the signed packet as raw bytes (C28, C29).
* C136 (`ConfigSpec.v`): non-interference by induction over executions of the network (`World.v`) and histories of calls (`Ipv8.v`): replacing configurations commutes with every step; queue size zero (mio asks epoll for zero events, EINVAL) by the invariant that the listener never leaves `poll`; small buffers by C42 and C49.
* C137 (`Compose.v`): the process of `Ipv8.v` and the sockets of `World.v` run side by side; every call of lib.rs performs its operations on both, and names the sockets it creates. Simulation: an invariant relates instances to `Waiting`/`Sending` sockets and listeners to `Listening` sockets; every theorem about either model then holds of the whole.
* C138 (`Parallel.v`): each step of `Concurrent.v` is performed in `World.v` too, and a table says which socket each descriptor is. Invariant: descriptors and sockets are open together; who holds a descriptor (C80's one-owner theorem) determines what the socket is doing; each step touches sockets of one owner only, so everything else is framed by the C137 lemmas.
* C139 (`Poison.v`): the states of `Concurrent.v` and whether its `Once` is poisoned; a panic in `build_global` sets that, and every call waiting at the `Once` or coming to it later panics. Invariant by induction on histories: until then a history of `Concurrent.v`; afterwards every thread is before the `Once` or leaving with a panic.
* C140 (`Recursive.v`): the reader is given how many calls the stack has room for; running out is an outcome of its own. Induction over an independent encoding relation (exact depth), over the stack (more stack changes nothing else), over types (those without references are those of `Universe.v`), and over the stack with the unread bytes as a bound (linear need, guarded types).
* C141 (`RunsOnSpec.v`, on `Parallel.v`): induction over continuations; a listening slot of the world is only changed by arrivals and its own thread, because its owner is the thread (C138) and binding looks at all open sockets; what ends it follows from the executions of one listener (C48).
* C142 (`Parts.v`): a program holds receivers, senders, values and listeners, each with the numbers of its sockets in `World.v`; every call takes some holdings and gives others back. Invariant by induction over executions: no socket held twice, what each held socket is doing, what started a listener, and that every socket a call bound is held or closed; rayon's pool by a second invariant. Reachability of calls by constructing the steps.
* C143 (`HistoriesSpec.v`, on `Client.v`): every call inside the packet is one of three kinds (panics and changes nothing; cuts into what was read and leaves the cursor behind the end; leaves it inside) by C22, C23, C26, C30; behind the end it stays there. Induction over histories gives the exact condition.
* C144 (`SameProgramSpec.v`): forward simulation from `Compose.v` to `Parts.v`. Relation: same world, the held things are the values in the slots with their sockets plus the listeners (as a multiset), same `Once`, same pool once there is one. Each step is matched by none or one. (The other direction does not hold literally: the environment of `Ipv8.v` fixes the answer for an address, that of `Parts.v` does not.)

Not expressible in this model: running time other than that of reading, writing and receiving (C125, C128, C130, in steps), log output (`log` macros), the behaviour of the operating
system beyond the stated interface, side channels of the cryptography.

## 3. Trusted base

1. Coq 8.16.1's kernel (with its VM: `vm_compute` is used for closed computations in examples).
2. Axioms: none. `Print Assumptions` prints "Closed under the global context" for every theorem in `Prop_*.v`. (vcheck's
   `library_axioms` lists fields of the standard library's module type `Coq.ssr.ssrunder.Under_rel`, which is merely loaded.)
3. Hypotheses that are not about inputs: `ed25519_laws` (C28, C29, C31, C37, C39, C58, C71, C92: signing yields 64 bytes that verify under the
   public key of the signer, public keys have 32 bytes, seeds are accepted as documented). C100 proves these laws of Ed25519 itself (`Ed25519.v`, written from RFC 8032 and checked against its
   test vectors and packets recorded from py-ipv8), so they are assumptions only about ring being an implementation of Ed25519; and
   unforgeability where a theorem states it as its hypothesis (C72, C93).
4. That the model is the code. The dependencies' sources are not in the sandbox; their semantics are written from knowledge of
   them: serde 1.0 and serde_derive, bincode 1.1/1.2 (big-endian, slice reader), zerocopy `LayoutVerified`, ring, rayon 1.x (`scope_fifo`,
   `par_iter`, global pool), mio 0.6 (edge-triggered poll), `std::net`, pyo3.

### Modelled

Every function of `serialization/`, `payloads/`, `networking/address.rs`, `util.rs`; `crypto/signature.rs` (of key
generation, everything but the system's randomness, which is any 32 bytes or a failure); `community/mod.rs` (registry, default `receive`), `community/peer.rs`; `networking/mod.rs`
(`NetworkReceiver::{new,start,listen,add_receiver}`, `NetworkSender::{new,send}`); `lib.rs`, `configuration.rs`;
`borrowedbundler.rs`.

### Not modelled, and simplifications

* `error.rs` display strings (errors are constructors, messages kept only where the API's behaviour depends on them), logging,
  `Debug` derives, benches, the `hooks` and `py-ipv8` directories, pyo3's conversions (Python's lock is in `PyThreads.v`).
* X25519 encryption keys are opaque 32 bytes.
* serde/bincode: capacity pre-allocation and memory exhaustion are not modelled (a `Vec` of 2^63 empty elements is a value here);
  maps are not in the universe but in `Custom.v`, where impls are arbitrary stateless functions; a tuple is a struct; floats are their bits (a
  copy through an x87 register, which may quiet a signalling NaN, is not modelled); borrowed data and `#[serde(...)]` attributes are only
  covered as hand-written impls.
* Arithmetic overflow: `datalen - 64` in `verify_with` panics in debug builds; in release builds it wraps and `split_at` panics
  instead, the same observable outcome.
* Communities: `get_mid` is constant (called once, at registration), `receive` is not overridden, one handler call is a function of
  its arguments (theorems quantify over all of them); C129 is about communities with state, without these restrictions. `HashMap` iteration order is never observed.
* Network: the socket is a FIFO queue of datagrams with truncation to the buffer; readiness is edge-triggered without spurious
  wake-ups (C60's assumption; C114 is about executions with them; a failure of `Poll::new` or of the registration, before the loop, has the effect of the first `poll` failing), with one event per poll for the single registered socket; `queuesize` has no effect beyond that
  (0 makes `poll` fail with EINVAL, which is covered by the arbitrary poll error); loss, duplication and reordering happen before the queue, so
  "arrivals" are what the OS accepted. Receivers are arbitrary: they return, panic, or never return; receivers that
  themselves use rayon (work stealing inside a receiver) are only in `Nested.v` (C131).
* rayon (`Rayon.v`): any available job may be taken by any thread that looks for one (rayon has an order of preference), ranges of receivers may be split anywhere or not
  at all (rayon: in halves, how often depends on the number of threads and on stealing), sleeping and waking of idle threads is left out. These only add executions. `RayonOrder.v` has the order of preference; what is left out there is said in its header.
* `World.v`: sockets' queues are unbounded; a datagram once sent can be delivered any number of times later or never; a wildcard
  IP (all zero) clashes with and accepts every IP, across IPv4 and IPv6 (dual stack); interfaces, firewalls and NAT are the arbitrary `topology`
  (only C88 assumes that answers find their way back, `symmetric_routes`); ICMP errors appear as arbitrary failures of `recv_from`/`send_to`.
* `Cost.v`: a step is a call of the deserializer or serializer, a push, or a byte copied or compared; a vector grows to 8 bytes or 4 elements (1 if they are above 1024 bytes), then by doubling (std), `with_capacity` is asked for
  at most 4096 elements (serde); the size of a type in memory is arbitrary. Not counted: error values, the stack, copying when a vector grows (at most what it requests), what handlers do.
* `Cluster.v`: which program binds or uses a socket before it is started is not recorded; a program that ends does so at once, its sockets are closed afterwards; the pool
  is there from the beginning of the program.
* `Recursive.v`: the stack is counted in nested calls of `deserialize`/`serialize` of the program's own types; how many bytes a call takes, and that dropping a deep value recurses again, is not modelled.
* `Poison.v`: that `std::sync::Once` poisons, and that a poisoned `call_once` panics, is std's documented behaviour, not proved; which rayon versions panic rather than return an error when asked for too many threads is not modelled: any call of `build_global` may.
* `Ipv8.v`: when a listener ends is not tied to the executions of `Network.v` there (any listener may end at any moment); `Compose.v` (C137) ties it. In `Compose.v` the process's only sockets are those of its `IPv8` values (any others it has are treated as other processes'). In `Parallel.v` the sockets the rest of the program opens are ones that send, and a receiver or sender field of a value is not moved out of it; `Parts.v` (C142) lifts both, with calls that run to completion, one after the other (threads interleave between calls, not inside them), without panics in `build_global` (`Poison.v`), and with a lazily built rayon pool whose threads always start. In `Concurrent.v`, descriptors are never reused and `build_global`
  always returns (`Poison.v`, C139, lifts that).
* Sockets: two can be open at the same time iff ports differ or hosts differ and none is the wildcard (no SO_REUSEADDR, as in the
  code); IPv6 sockets of the same port are treated by the same rule.
* `trait Community` has no `Send + Sync` bound, so the forwarding receiver the documentation describes (C70) does not type-check
  as is: a user needs a wrapper (for instance with communities behind a lock, or `unsafe impl`). The model of such a receiver
  is in `EndToEndSpec.v`, outside the model of the crate.

## 4. Findings

Confirmed deviations from what documentation or names promise, each with a proved witness:

| property | finding |
|---|---|
| C04 | `Packet::new` accepts ids that are not 20 bytes and message types above 255; the receiver decodes another header |
| C11, C12 | `IntroductionResponsePayload.tunnel` is not sent; structs with raw bytes in the middle are ambiguous |
| C23, C22 | `BinMemberAuthenticationPayload` with a blob shorter than 74 bytes panics: two bytes from the network suffice |
| C25 | key blobs longer than 74 bytes leave the cursor inside the blob |
| C34, C35 | `verify_with` panics on packets shorter than 64 bytes; reading after `verify` can panic |
| C33, C36 | `verify` removes 64 bytes even if the verdict is false |
| C40 | the Python binding panics on such packets |
| C45 | types 245, 246, 249, 250 of the documented reserved range reach handlers |
| C46 | communities with an id of another length than 20 are accepted and unreachable |
| C52 | edge-triggered poll with one receive per event strands datagrams |
| C56 | nothing connects an `IPv8` instance's registry to its receiver |
| C69 | slow receivers of one instance starve all others |
| C73 | no replay protection |
| C84 | concurrent calls of `IPv8::new` are not atomic: two crossing configurations can both fail |
| C87 | whoever reaches a receiver's socket chooses the source address its handlers see |
| C88 | replies to the address given to `on_receive` reach no handler: the sender's socket is never read |
| C76 | eight bytes make a `Vec` of up to 2^64-1 empty elements |
| C132 | a panic in `borrowed_verify_signature` (25 bytes suffice, C40) ends the whole Python process, all its threads |
| C133 | payloads with floats: 0.0 and -0.0 are `==` but written differently, a NaN received is not `==` the one sent |
| C134 | a packet of 131 bytes, made without a secret, passes `verify` and makes every later read panic (its signature overlaps its key); behind a forwarding receiver one such datagram, or one of 25 bytes, ends the listener for ever. A handler that calls `verify` as its first method, as the documentation says, panics on every packet |
| C135 | adding to a signed packet is not noticed by `add`; it breaks the verification for all but at most one value of a payload of up to 32 bytes, but not always: a second signature as raw bytes is accepted and leaves the first one as if it were payload |
| C136 | `queuesize` does not reserve space for messages: every value from one on behaves the same, zero makes the listener fail before it receives anything; `default_hosts` is never used |
| C131 | receivers that hold a lock while they use rayon can block the pool and all listeners for ever |
| C103 | `verify` accepts any content under the key 01 00 .. 00 and three other encodings of it, which nobody needs a secret for |
| C107 | PKCS#8 version 1 documents (as other software writes them) are rejected |
| C108 | the holder of a key can make many accepted packets with the same content |
| C113 | a signed message can be passed on to any host, any number of times, by anybody: the signature covers neither recipient nor time |
| C114 | one datagram with a wrong checksum, from anybody, ends the listener (`recv_from` returns WouldBlock, which `?` treats as fatal) |
| C117 | a listener whose receivers have all returned can be frozen by a slow receiver of another listener, although threads are free: rayon's threads execute other jobs while they wait |
| C118 | if more and more instances are started in a process with two pool threads or more, one of them can starve although every receiver returns: its thread piles the others' jobs on top of it (also in rayon's own order of taking jobs; not with one thread, C120) |
| C122 | `as_fixed_size` to a type with alignment above one (`[u16; n]`, `u64`, ..) succeeds or fails depending on the address of the slice |
| C57 | `default_hosts` contains 131.180.27.161:6427 twice |
| C125 | eight bytes make a payload type with a vector of possibly empty elements (`Vec<RawEnd>`, `Vec<()>`) take up to 2^64 - 1 steps and room for as many elements; for all other types reading is linear |
| C139 | a panic in `build_global` poisons `THREADPOOL_START`: from then on every `IPv8::new` of the process panics, also those already waiting; an error of `build_global` is reported to the building call only, and all others go on without the pool |
| C140 | a payload type that contains itself (`Option<Box<Self>>`, `Vec<Self>`, an enum) is read by recursion as deep as the packet says, up to three nested calls for each byte, before anything is verified: nothing in the crate limits it but the size of the receive buffer, and a stack overflow aborts the process |
| C141 | a started instance cannot be stopped: `start` gives the socket to a detached thread, and nothing in the crate ends it but an error or a panic of a receiver, so port and thread are taken until the process ends |
| C142 | the pool belongs to whoever comes first: a program that starts a `NetworkReceiver` of its own gets rayon's default pool with the first datagram anybody sends to it, and its first `IPv8::new` after that fails with `ThreadPoolBuildError` - a race a stranger decides; `IPv8::start` throws the sender away, but taking the value apart and starting its receiver keeps it |
| C143 | a deserializer whose packet was verified with fewer than 64 unread bytes is lost: the call returns normally (true or false), but from then on every call that looks at the packet panics, for good; only moving the public field `index` back helps, no method does |
| C144 | none in the code. Writing the simulation showed that `Parts.v` did not have a failing `send` on a held sender, which `Compose.v` has; it has it now |

## 5. Testing the theorems

`seeded/LOG.jsonl`: one line per wrong program (edit of the model in a scratch copy), with the theorems that stopped
proving. A harness replaces each failing proof by `Admitted` in the scratch copy and goes on, so that for every edit the exact
set of property theorems that depend on a broken lemma is known.
