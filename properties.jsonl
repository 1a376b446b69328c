{"id": "C01", "title": "Header round trip", "statement": "For every 20-byte community id and every u8 message type, Packet::new(Header::py_ipv8_header(mid, t)) succeeds, the packet's bytes are exactly 00 02, then the 20 id bytes, then t, and peek_header / pop_header on it return exactly that header; pop_header moves the cursor to 23.", "quantifier": "every 20-byte mid, every message type 0..255, and any bytes that follow the header", "why_tests_cant": "2^168 headers; the test suite checks one or two literals", "anchors": ["rust_ipv8/src/serialization/header.rs: Header::py_ipv8_header, Serialize/Deserialize for Header", "rust_ipv8/src/serialization/mod.rs: Packet::new, peek_header, pop_header"]}
{"id": "C02", "title": "Header decoding accepts exactly the well-formed prefixes", "statement": "peek_header on any byte string succeeds iff there are at least 23 bytes from the cursor on and the first two are 00 02; the decoded community id is bytes 2..21 and the message type is byte 22; every other input is an Err, never a panic, as long as the cursor is inside the packet.", "quantifier": "every byte string and every cursor position inside it", "why_tests_cant": "ranges over all byte strings", "anchors": ["rust_ipv8/src/serialization/mod.rs: peek_header", "rust_ipv8/src/serialization/header.rs: Deserialize for Header"]}
{"id": "C03", "title": "An incomplete header never becomes a packet", "statement": "Packet::new fails with an error, and yields no packet, iff the header has no community id or no message type.", "quantifier": "every Header value", "why_tests_cant": "all Header values, including hand-built ones", "anchors": ["rust_ipv8/src/serialization/header.rs: Serialize for Header", "rust_ipv8/src/serialization/mod.rs: Packet::new"]}
{"id": "C04", "title": "When is the receiver's header the sender's", "statement": "A receiver decodes exactly the header Packet::new was given if and only if the community id has 20 bytes, the message type is at most 255 and the size field is 23. The unconditional form (whatever header Packet::new accepts is what the receiver decodes) is false: other hand-built headers are accepted and silently changed, so that the message is delivered to another community or as another type.", "quantifier": "every Header value accepted by Packet::new", "why_tests_cant": "needs the exact set of headers for which the round trip holds", "anchors": ["rust_ipv8/src/serialization/header.rs: Header, Serialize for Header", "rust_ipv8/src/serialization/mod.rs: Packet::new"]}
{"id": "C05", "title": "Wire layout of every payload", "statement": "Packet::add of a payload appends exactly the py-ipv8 byte layout of that payload: big-endian integers, addresses as 4 address bytes and a 2-byte port, flags packed bit 0 = least significant, u16/u32/u64 length prefixes for VarLen16/32/64, raw trailing bytes, the LibNaCLPK: key blob, fields in declaration order.", "quantifier": "every value of every payload type, on top of any packet", "why_tests_cant": "byte compatibility with py-ipv8 must hold for all field values", "anchors": ["rust_ipv8/src/serialization/mod.rs: Packet::add", "rust_ipv8/src/networking/address.rs", "rust_ipv8/src/payloads/introductionrequestpayload.rs", "rust_ipv8/src/payloads/introductionresponsepayload.rs", "rust_ipv8/src/payloads/puncturepayload.rs", "rust_ipv8/src/payloads/puncturerequestpayload.rs", "rust_ipv8/src/payloads/timedistributionpayload.rs", "rust_ipv8/src/payloads/binmemberauthenticationpayload.rs", "rust_ipv8/src/serialization/varlen.rs", "rust_ipv8/src/serialization/rawend.rs", "rust_ipv8/src/serialization/bits.rs", "rust_ipv8/src/serialization/nestedpayload.rs"]}
{"id": "C06", "title": "Payload round trip", "statement": "For every payload type (built-in, or a user struct or enum derived from the library's field types, integers, bool, String, Option and Vec, nested to any depth) and every value it can represent, adding the value to a packet and reading it back with next_payload from where it was written returns the same value and moves the cursor exactly past it.", "quantifier": "every payload type in the universe of derivable structs and enums, every value, any preceding and (for self-delimiting types) any following bytes", "why_tests_cant": "unbounded types and values", "anchors": ["rust_ipv8/src/serialization/mod.rs: Packet::add, next_payload", "rust_ipv8/src/payloads/introductionrequestpayload.rs", "rust_ipv8/src/payloads/introductionresponsepayload.rs", "rust_ipv8/src/payloads/puncturepayload.rs", "rust_ipv8/src/payloads/puncturerequestpayload.rs", "rust_ipv8/src/payloads/timedistributionpayload.rs", "rust_ipv8/src/payloads/binmemberauthenticationpayload.rs", "rust_ipv8/src/serialization/varlen.rs", "rust_ipv8/src/serialization/rawend.rs", "rust_ipv8/src/serialization/nestedpayload.rs"]}
{"id": "C07", "title": "Multi-payload packets are read back in order", "statement": "A packet built from a header and any sequence of self-delimiting payloads (the last one may end in raw bytes) is read back by pop_header followed by one next_payload per payload, in order, giving exactly the values written; the cursor ends at the packet's length, and one more read of a non-empty payload is an Err and not a panic.", "quantifier": "every heterogeneous list of payloads of any length", "why_tests_cant": "tests use three fixed payloads", "anchors": ["rust_ipv8/src/serialization/mod.rs: PacketDeserializer::next_payload, Packet::add"]}
{"id": "C08", "title": "Decoding of fixed-layout payloads is position exact", "statement": "On arbitrary bytes, next_payload of TimeDistribution, Puncture, PunctureRequest, IntroductionRequest and IntroductionResponse succeeds iff at least 8, 14, 14, 21, 33 bytes remain, and each field is the documented function of the bytes at its fixed offset; otherwise it is an end-of-input Err.", "quantifier": "every byte string", "why_tests_cant": "ranges over all byte strings, including hostile ones", "anchors": ["rust_ipv8/src/payloads/timedistributionpayload.rs", "rust_ipv8/src/payloads/puncturepayload.rs", "rust_ipv8/src/payloads/puncturerequestpayload.rs", "rust_ipv8/src/payloads/introductionrequestpayload.rs", "rust_ipv8/src/payloads/introductionresponsepayload.rs", "rust_ipv8/src/networking/address.rs"]}
{"id": "C09", "title": "Truncated payloads are rejected", "statement": "Reading a self-delimiting payload from any strict prefix of its encoding is an Err: a cut datagram never yields a value.", "quantifier": "every self-delimiting payload type, value and cut point", "why_tests_cant": "every cut point of every encoding", "anchors": ["rust_ipv8/src/serialization/mod.rs: next_payload", "rust_ipv8/src/serialization/varlen.rs", "rust_ipv8/src/payloads/binmemberauthenticationpayload.rs", "rust_ipv8/src/networking/address.rs"]}
{"id": "C10", "title": "Bytes after a self-delimiting payload do not matter", "statement": "Whether and what next_payload returns for a type without a raw tail depends only on the bytes it consumes: appending bytes to a packet on which it succeeds changes neither the value nor the new cursor.", "quantifier": "every byte string, every suffix, every self-delimiting type", "why_tests_cant": "two universally quantified byte strings", "anchors": ["rust_ipv8/src/serialization/mod.rs: next_payload"]}
{"id": "C11", "title": "Encoding is injective", "statement": "Two values of the same payload type with the same encoding are equal (up to the tunnel flag of IntroductionResponse, which is not sent), for every type in which raw bytes occur only at the end. For user structs with raw bytes in the middle this is false.", "quantifier": "every pair of values of every payload type", "why_tests_cant": "quantifies over pairs of values", "anchors": ["rust_ipv8/src/payloads/introductionrequestpayload.rs", "rust_ipv8/src/payloads/introductionresponsepayload.rs", "rust_ipv8/src/payloads/puncturepayload.rs", "rust_ipv8/src/payloads/puncturerequestpayload.rs", "rust_ipv8/src/payloads/timedistributionpayload.rs", "rust_ipv8/src/payloads/binmemberauthenticationpayload.rs", "rust_ipv8/src/serialization/varlen.rs", "rust_ipv8/src/serialization/nestedpayload.rs"]}
{"id": "C12", "title": "IntroductionResponse loses exactly the tunnel flag", "statement": "Writing and reading an IntroductionResponsePayload returns the same value with tunnel set to false and every other field preserved; hence the round trip is exact if and only if tunnel was false, and fails for tunnel = true.", "quantifier": "every IntroductionResponsePayload", "why_tests_cant": "all field values", "anchors": ["rust_ipv8/src/payloads/introductionresponsepayload.rs"]}
{"id": "C13", "title": "Bits is a bijection with bytes", "statement": "Bits::from_u8 and to_u8 are mutually inverse, and bit i of the struct is bit i (weight 2^i) of the byte.", "quantifier": "every u8 and every combination of eight booleans", "why_tests_cant": "needs all 256 values, tests check 42", "anchors": ["rust_ipv8/src/serialization/bits.rs: Bits::from_u8, to_u8, from_bools"]}
{"id": "C14", "title": "ConnectionType coding", "statement": "Every connection type survives encode/decode; the fourth bit pattern (false,true) decodes to UNKNOWN and is never produced by encode.", "quantifier": "every connection type and bit pair", "why_tests_cant": "exhaustive over both directions", "anchors": ["rust_ipv8/src/payloads/connectiontype.rs"]}
{"id": "C15", "title": "Re-encoding what was decoded", "statement": "Re-adding a decoded payload reproduces the bytes it was decoded from, byte for byte, except for the flag byte of introduction payloads, where spare bits are cleared (and pattern 10 in the two connection-type bits is normalised to 00), and for authentication payloads longer than 74 bytes.", "quantifier": "every byte string on which decoding succeeds", "why_tests_cant": "ranges over all accepted inputs", "anchors": ["rust_ipv8/src/payloads/introductionrequestpayload.rs", "rust_ipv8/src/payloads/introductionresponsepayload.rs", "rust_ipv8/src/payloads/puncturepayload.rs", "rust_ipv8/src/payloads/puncturerequestpayload.rs", "rust_ipv8/src/payloads/timedistributionpayload.rs", "rust_ipv8/src/serialization/varlen.rs", "rust_ipv8/src/serialization/nestedpayload.rs"]}
{"id": "C16", "title": "VarLen size limits", "statement": "Adding a VarLen16 (VarLen32, NestedPacket) succeeds iff it holds at most 65535 (4294967295, 65535) bytes; the boundary value itself round-trips; above it add is an Err.", "quantifier": "every byte vector of any length", "why_tests_cant": "tests cannot allocate the 4 GiB boundary and try only one oversize length", "anchors": ["rust_ipv8/src/serialization/varlen.rs", "rust_ipv8/src/serialization/nestedpayload.rs"]}
{"id": "C17", "title": "VarLen decoding reads exactly the announced number of bytes", "statement": "Reading a VarLen16/32/64 from any bytes succeeds iff the length prefix is present and at least that many bytes follow; the value is exactly these bytes and the cursor moves by prefix + length.", "quantifier": "every byte string", "why_tests_cant": "all inputs including lying length prefixes", "anchors": ["rust_ipv8/src/serialization/varlen.rs"]}
{"id": "C18", "title": "IPv6 addresses are never put on the wire", "statement": "Adding any payload that contains an IPv6 address, at any depth, is an Err, which says so; without one (and within the VarLen limits) it succeeds.", "quantifier": "every payload type and value", "why_tests_cant": "all positions of an address in any structure", "anchors": ["rust_ipv8/src/networking/address.rs", "rust_ipv8/src/serialization/mod.rs: Packet::add"]}
{"id": "C19", "title": "add is all-or-nothing and append-only", "statement": "A failing Packet::add leaves the packet unchanged; a succeeding one keeps every earlier byte and only appends.", "quantifier": "every packet, payload type and value", "why_tests_cant": "all packets and payloads", "anchors": ["rust_ipv8/src/serialization/mod.rs: Packet::add"]}
{"id": "C20", "title": "Raw-tail payloads absorb everything after them", "statement": "After adding a payload that ends in raw bytes (introduction request/response), any bytes added later are read back as part of its extra bytes and nothing remains for the next read.", "quantifier": "every introduction payload and every following byte string", "why_tests_cant": "all suffixes", "anchors": ["rust_ipv8/src/serialization/rawend.rs", "rust_ipv8/src/payloads/introductionrequestpayload.rs", "rust_ipv8/src/payloads/introductionresponsepayload.rs"]}
{"id": "C21", "title": "Nested packets", "statement": "A NestedPacket carries any packet of at most 65535 bytes unchanged, and packets nested to any depth are recovered layer by layer, each layer costing exactly 2 bytes.", "quantifier": "every packet and every nesting depth", "why_tests_cant": "unbounded depth", "anchors": ["rust_ipv8/src/serialization/nestedpayload.rs"]}
{"id": "C22", "title": "next_payload never panics on hostile bytes", "statement": "With the cursor inside the packet, next_payload of every payload type that contains no BinMemberAuthenticationPayload returns Ok or Err on every byte string, and never panics.", "quantifier": "every byte string, cursor in range and payload type without authentication payload", "why_tests_cant": "ranges over all inputs", "anchors": ["rust_ipv8/src/serialization/mod.rs: next_payload"]}
{"id": "C23", "title": "What reading an authentication payload does to every input", "statement": "Reading a BinMemberAuthenticationPayload from any bytes: an end-of-input Err if the announced key blob is incomplete, an Err if it has at least 10 bytes and the wrong prefix, the keys at their fixed places if it has at least 74 bytes and the right prefix, and a panic exactly in the remaining cases (blob shorter than 10 bytes, or correctly prefixed and shorter than 74). The form a user expects, that malformed authentication payloads are rejected without crashing, is false.", "quantifier": "every byte string", "why_tests_cant": "needs the exact set of crashing inputs", "anchors": ["rust_ipv8/src/payloads/binmemberauthenticationpayload.rs: Deserialize", "rust_ipv8/src/serialization/mod.rs: verify"]}
{"id": "C24", "title": "Failed reads leave the deserializer untouched", "statement": "When next_payload, pop_header or peek_header returns Err, the cursor and packet are unchanged, so another type can be tried.", "quantifier": "every packet, cursor and payload type", "why_tests_cant": "all inputs", "anchors": ["rust_ipv8/src/serialization/mod.rs: next_payload, pop_header, peek_header"]}
{"id": "C25", "title": "The cursor advances by exactly what was decoded", "statement": "After a successful next_payload of a self-delimiting type without authentication payload the cursor is exactly at the end of what was decoded: the packet cut there gives the same result, cut anywhere earlier an Err. A type ending in raw bytes takes everything. For an authentication payload the cursor always moves by 76, which is its end only if the announced blob length is 74: for longer ones the next read starts inside the key blob.", "quantifier": "every byte string and payload type", "why_tests_cant": "all inputs", "anchors": ["rust_ipv8/src/serialization/mod.rs: next_payload (serialized_size)", "rust_ipv8/src/payloads/binmemberauthenticationpayload.rs"]}
{"id": "C26", "title": "The cursor never leaves the packet while reading", "statement": "Under any sequence of peek_header, pop_header and next_payload calls, of any types and with any results, the cursor never decreases and never passes the end of the packet, the packet bytes never change, and no call panics unless it reads an authentication payload.", "quantifier": "every packet and every finite history of reads", "why_tests_cant": "unbounded histories", "anchors": ["rust_ipv8/src/serialization/mod.rs: PacketDeserializer"]}
{"id": "C27", "title": "Decoding does not amplify", "statement": "A value returned by next_payload occupies no more bytes when encoded than the packet had left: length prefixes cannot make the decoder produce more bytes than were received (elements of no bytes are the exception, see C76).", "quantifier": "every byte string and payload type", "why_tests_cant": "all inputs, including 2^32-1 and 2^64-1 length prefixes", "anchors": ["rust_ipv8/src/serialization/varlen.rs", "rust_ipv8/src/serialization/rawend.rs", "rust_ipv8/src/serialization/mod.rs: next_payload"]}
{"id": "C28", "title": "Signing appends exactly one signature", "statement": "Packet::sign keeps all bytes of the packet and appends exactly the 64 bytes of the Ed25519 signature over all of them.", "quantifier": "every packet and key pair", "why_tests_cant": "all packets", "anchors": ["rust_ipv8/src/serialization/mod.rs: Packet::sign", "rust_ipv8/src/crypto/signature.rs: sign, sign_packet, Serialize for Signature"]}
{"id": "C29", "title": "A signed packet verifies and is restored", "statement": "verify_with under the signer's public key returns true on a signed packet, and afterwards the deserializer holds exactly the unsigned packet with the same cursor.", "quantifier": "every packet, key pair and cursor", "why_tests_cant": "all packets and keys", "anchors": ["rust_ipv8/src/serialization/mod.rs: sign, verify_with", "rust_ipv8/src/crypto/signature.rs"]}
{"id": "C30", "title": "What verify_with accepts", "statement": "verify_with returns true iff the last 64 bytes are a valid Ed25519 signature, under the given key, of all bytes before them (header included), whatever the cursor; so accepting any packet other than the signed one exhibits a forgery.", "quantifier": "every packet of at least 64 bytes, key and cursor", "why_tests_cant": "all packets, all tamperings", "anchors": ["rust_ipv8/src/serialization/mod.rs: verify_with", "rust_ipv8/src/crypto/signature.rs: verify_raw"]}
{"id": "C31", "title": "Signed message end to end", "statement": "A packet made of header, authentication payload with the signer's key, and any payloads, then signed: the receiver's pop_header, verify, and next_payload calls return the header, true, and the payloads in order.", "quantifier": "every header, key pair, encryption key and payload list", "why_tests_cant": "all messages", "anchors": ["rust_ipv8/src/serialization/mod.rs", "rust_ipv8/src/payloads/binmemberauthenticationpayload.rs", "rust_ipv8/src/crypto/signature.rs"]}
{"id": "C32", "title": "verify uses the key inside the packet", "statement": "verify checks the signature against the last 32 of the 74 key-blob bytes of the authentication payload at the cursor (after prefix and encryption key) and leaves the cursor 76 bytes further.", "quantifier": "every packet on which the authentication payload decodes", "why_tests_cant": "all packets", "anchors": ["rust_ipv8/src/serialization/mod.rs: verify", "rust_ipv8/src/payloads/binmemberauthenticationpayload.rs"]}
{"id": "C33", "title": "Effect of a failed verification", "statement": "When verify returns false because no authentication payload can be decoded nothing changes; when the signature is wrong the last 64 bytes are removed all the same and the cursor has moved past the authentication payload.", "quantifier": "every packet", "why_tests_cant": "all packets", "anchors": ["rust_ipv8/src/serialization/mod.rs: verify, verify_with"]}
{"id": "C34", "title": "Verification of packets too short for a signature", "statement": "verify_with panics if and only if the packet has fewer than 64 bytes (so it does not report false on packets too short for a signature). verify never reaches that case: it panics exactly when reading the authentication payload panics and never returns an Err.", "quantifier": "every packet", "why_tests_cant": "needs the exact boundary", "anchors": ["rust_ipv8/src/serialization/mod.rs: verify_with"]}
{"id": "C35", "title": "When is reading after verification safe", "statement": "After verify has read an authentication payload and returned, every later read panics if fewer than 64 bytes follow the 76 bytes of the authentication payload, and otherwise the cursor is inside the packet and no read of a type without authentication payload panics. (So reading after verification is not always safe.)", "quantifier": "every packet", "why_tests_cant": "exact set of crashing packets", "anchors": ["rust_ipv8/src/serialization/mod.rs: verify, next_payload, peek_header"]}
{"id": "C36", "title": "Repeated verification", "statement": "Each call of verify_with removes 64 more bytes, valid or not; over any history of reads and verifications the remaining packet is the original minus 64 bytes per verification.", "quantifier": "every history of deserializer operations", "why_tests_cant": "unbounded histories", "anchors": ["rust_ipv8/src/serialization/mod.rs: PacketDeserializer"]}
{"id": "C37", "title": "Key pairs", "statement": "from_seed_checked returns a key pair iff the public key given belongs to the seed, and then public_key returns that key; verify_packet and verify_raw agree with each other and with verify.", "quantifier": "every seed, key, message and signature", "why_tests_cant": "all keys", "anchors": ["rust_ipv8/src/crypto/signature.rs: KeyPair, verify_packet, verify_raw"]}
{"id": "C38", "title": "as_fixed_size is exact", "statement": "as_fixed_size to an N-byte array succeeds iff the slice has exactly N bytes and then returns the same bytes.", "quantifier": "every slice and every N", "why_tests_cant": "all lengths", "anchors": ["rust_ipv8/src/util.rs"]}
{"id": "C39", "title": "Python create_signature", "statement": "borrowed_create_signature returns data ++ signature iff key and seed are 32 bytes each and belong together; otherwise it raises KeyError with the reason checked first (key length, then seed length, then mismatch).", "quantifier": "every triple of byte strings", "why_tests_cant": "all inputs", "anchors": ["rust_ipv8_in_python/src/borrowedbundler.rs: borrowed_create_signature", "rust_ipv8/src/util.rs", "rust_ipv8/src/crypto/signature.rs"]}
{"id": "C40", "title": "Python verify_signature", "statement": "borrowed_verify_signature on any bytes: ValueError if there is no header; (false, everything behind the header) if the key blob is incomplete or has the wrong prefix; (verdict, the bytes between authentication payload and signature) if the blob has at least 74 bytes and the packet at least 163; a panic, which takes the interpreter's call down, in exactly the other cases. What borrowed_create_signature makes is accepted and its body returned. That it never crashes is false: 25 bytes suffice.", "quantifier": "every byte string", "why_tests_cant": "all inputs", "anchors": ["rust_ipv8_in_python/src/borrowedbundler.rs: borrowed_verify_signature"]}
{"id": "C41", "title": "Registry is a map with last-writer-wins", "statement": "After any sequence of add_community calls, a message for community id m is handled by the community added last among those with id m, and communities with other ids are unaffected.", "quantifier": "every finite history of registrations", "why_tests_cant": "unbounded histories", "anchors": ["rust_ipv8/src/community/mod.rs: CommunityRegistry::add_community"]}
{"id": "C42", "title": "Routing by community id", "statement": "forward_message invokes on_receive of at most one community: the registered one whose id equals bytes 2..21 of the packet; if the header is malformed or no such community exists it returns an error and calls nobody.", "quantifier": "every registry, packet and source address", "why_tests_cant": "all packets and registries", "anchors": ["rust_ipv8/src/community/mod.rs: forward_message"]}
{"id": "C43", "title": "Handlers see the whole packet", "statement": "The handler gets the decoded header, the unmodified packet with the cursor at 0 (header not skipped) and the sender's address, and its result is what forward_message returns.", "quantifier": "every registry, packet and address", "why_tests_cant": "all packets", "anchors": ["rust_ipv8/src/community/mod.rs: forward_message, receive"]}
{"id": "C44", "title": "Deprecated message types never reach a handler", "statement": "Messages of types 235-244, 247, 248, 251-255 are swallowed with a warning and Ok; every other type 0-255 reaches on_receive.", "quantifier": "every packet with a routable header", "why_tests_cant": "all 256 types, any handler", "anchors": ["rust_ipv8/src/community/mod.rs: receive"]}
{"id": "C45", "title": "Which of the documented reserved types 235-255 are captured", "statement": "Of the documented reserved range 235..255 of message types exactly 245, 246, 249 and 250 are passed on to on_receive; all others of the range are captured. (The documentation says all are captured.)", "quantifier": "every message type in 235..255", "why_tests_cant": "exact set", "anchors": ["rust_ipv8/src/community/mod.rs: on_receive docs, receive"]}
{"id": "C46", "title": "Communities with an id that is not 20 bytes are unreachable", "statement": "add_community accepts any id, but no packet whatsoever is ever routed to a community whose id is not exactly 20 bytes long.", "quantifier": "every registry and packet", "why_tests_cant": "quantifies over all packets", "anchors": ["rust_ipv8/src/community/mod.rs: add_community, forward_message", "rust_ipv8/src/serialization/header.rs"]}
{"id": "C47", "title": "Peer ids are routable", "statement": "Peer::get_sha1 is the SHA-1 of the public key, always 20 bytes, so a community using it as id is reached by packets whose header carries it.", "quantifier": "every public key", "why_tests_cant": "all 2^256 keys", "anchors": ["rust_ipv8/src/community/peer.rs", "rust_ipv8/src/community/mod.rs"]}
{"id": "C48", "title": "Every received datagram reaches every receiver exactly once, in order", "statement": "For every schedule of the worker threads, each receiver is called exactly once per received datagram, in the order of reception, with the datagram's bytes and source address; while a datagram is being dispatched, or if a receiver panicked on it, only that last one may still be missing. Receivers that do not exist are never called.", "quantifier": "every sequence of datagrams, receivers and thread interleavings", "why_tests_cant": "all schedules", "anchors": ["rust_ipv8/src/networking/mod.rs: NetworkReceiver::listen"]}
{"id": "C49", "title": "Receive buffer reuse never leaks old bytes", "statement": "The packet handed to receivers is exactly the first min(length, buffersize) bytes of the datagram, independent of earlier contents of the shared buffer.", "quantifier": "every history of datagrams and every buffer size", "why_tests_cant": "all histories", "anchors": ["rust_ipv8/src/networking/mod.rs: listen"]}
{"id": "C50", "title": "One datagram at a time", "statement": "No receiver is called for a datagram before every receiver has returned for the previous one.", "quantifier": "every schedule", "why_tests_cant": "all interleavings", "anchors": ["rust_ipv8/src/networking/mod.rs: listen (scope_fifo)"]}
{"id": "C51", "title": "Listener failure is clean", "statement": "After a poll or receive error, or a panic in a receiver, the listener stops: nothing more is delivered; and everything received before an I/O error has been delivered to all receivers.", "quantifier": "every schedule and failure point", "why_tests_cant": "all failure points", "anchors": ["rust_ipv8/src/networking/mod.rs: start, listen"]}
{"id": "C52", "title": "When datagrams are stranded", "statement": "With edge-triggered polling and one receive per event, two datagrams arriving before a poll leave one stranded in the socket while the listener blocks, and it is not received as long as nothing new arrives; a backlog present when the listener blocks never shrinks again. What does hold: if each datagram arrives after readiness for the earlier ones was reported, then whenever the listener blocks everything that arrived has been delivered. (The expected form, that a waiting datagram is eventually received without further traffic, is false.)", "quantifier": "every arrival schedule", "why_tests_cant": "timing dependent; tests sleep 20 ms between sends", "anchors": ["rust_ipv8/src/networking/mod.rs: listen (PollOpt::edge, one recv_from per event)"]}
{"id": "C53", "title": "Reception is FIFO and invents nothing", "statement": "The sequence of packets delivered is, after truncation, a prefix of the datagrams that arrived.", "quantifier": "every schedule", "why_tests_cant": "all schedules", "anchors": ["rust_ipv8/src/networking/mod.rs: listen"]}
{"id": "C54", "title": "Thread pool is configured once", "statement": "Whatever the number and order of IPv8::new calls, the global thread pool is built at most once, with the thread count of the first call.", "quantifier": "every history of IPv8::new calls", "why_tests_cant": "global state over histories", "anchors": ["rust_ipv8/src/lib.rs: IPv8::new, THREADPOOL_START"]}
{"id": "C55", "title": "IPv8::new reports failures and retries", "statement": "IPv8::new succeeds iff the pool could be built (first call only) and both sockets could be bound; in particular a second live instance with the default configuration fails because port 8000 is taken.", "quantifier": "every process history", "why_tests_cant": "depends on histories of socket use", "anchors": ["rust_ipv8/src/lib.rs: IPv8::new", "rust_ipv8/src/configuration.rs: Config::default", "rust_ipv8/src/networking/mod.rs: NetworkSender::new, NetworkReceiver::new"]}
{"id": "C56", "title": "Who gets the packets of a started instance", "statement": "IPv8 never connects its registry to its receiver: in every program that adds no receiver by hand, a started listener calls nobody, whatever communities were registered and whatever arrives. An instance keeps the communities and receivers added to it, and start starts a listener notifying exactly the receivers added by hand. (The documented form, that registered communities get the packets that arrive, is false.)", "quantifier": "every configuration, registry and arrival", "why_tests_cant": "absence of a connection must hold for all histories", "anchors": ["rust_ipv8/src/lib.rs: IPv8::start", "rust_ipv8/src/networking/mod.rs: add_receiver"]}
{"id": "C57", "title": "Default configuration is usable on the wire", "statement": "All default bootstrap hosts and default addresses are IPv4 and can be put into payloads and recovered.", "quantifier": "every default address, any payload using it", "why_tests_cant": "combines configuration and codec for all payloads", "anchors": ["rust_ipv8/src/configuration.rs"]}
{"id": "C58", "title": "Signatures stack", "statement": "A packet signed one after the other by any sequence of keys is peeled by verify_with calls in the opposite order: each returns true, and in the end the original packet with the same cursor is back.", "quantifier": "all packets, all finite sequences of key pairs, all cursors", "why_tests_cant": "unbounded number of signatures and all contents", "anchors": ["rust_ipv8/src/serialization/mod.rs: Packet::sign, PacketDeserializer::verify_with"]}
{"id": "C59", "title": "Routing hostile bytes never panics by itself", "statement": "CommunityRegistry::forward_message on any byte string whatsoever never panics of its own accord: the only possible panic is one raised by the on_receive of the registered community the packet is addressed to.", "quantifier": "all byte strings, sender addresses and registries, all user handlers", "why_tests_cant": "An attacker chooses the bytes; a panic kills the listener thread, and tests only try a few malformed packets.", "anchors": ["rust_ipv8/src/community/mod.rs:CommunityRegistry::forward_message", "rust_ipv8/src/serialization/mod.rs:PacketDeserializer::peek_header"]}
{"id": "C60", "title": "A reported readiness is always backed by a datagram", "statement": "Under the modelled edge-triggered readiness (no spurious wake-ups), recv_from in the listen loop never finds the socket empty, so the listener never dies of WouldBlock.", "quantifier": "every arrival schedule, every interleaving", "why_tests_cant": "Needs an invariant relating pending readiness, unhandled events and queue length over every schedule.", "anchors": ["rust_ipv8/src/networking/mod.rs:NetworkReceiver::listen"]}
{"id": "C61", "title": "The listener never gets stuck", "statement": "In every reachable state the listener has stopped, or is blocked in poll with nothing reported, or it or one of the receivers can take a step that is not a failure.", "quantifier": "every reachable state", "why_tests_cant": "Deadlock freedom over every interleaving of worker threads.", "anchors": ["rust_ipv8/src/networking/mod.rs:NetworkReceiver::listen"]}
{"id": "C62", "title": "The listener never livelocks and always gets back to poll", "statement": "The number of steps of any execution is bounded linearly by datagrams, receivers and poll timeouts; and from every state reached without failures it can, without new arrivals or failures, get back to poll; with spaced arrivals everything that arrived is then delivered.", "quantifier": "every execution", "why_tests_cant": "Termination of every interleaving of unbounded length.", "anchors": ["rust_ipv8/src/networking/mod.rs:NetworkReceiver::listen"]}
{"id": "C63", "title": "Sending hands over exactly the packet", "statement": "NetworkSender::send hands exactly packet.raw() to the given address exactly once and reports the socket's result; if these bytes reach a listener whose buffer is large enough, every receiver gets exactly that packet.", "quantifier": "every packet, address and socket behaviour, every schedule of the receiving side", "why_tests_cant": "Holds for all packets and all schedules on the receiving side.", "anchors": ["rust_ipv8/src/networking/mod.rs:NetworkSender::send", "rust_ipv8/src/networking/mod.rs:NetworkReceiver::listen"]}
{"id": "C64", "title": "What start, drop and the end of a listener do to the sockets", "statement": "IPv8::start moves the receiving socket, the configuration and the receivers added so far into a listener, closes the sending socket and discards the instance with its communities, leaving every other instance alone; dropping an instance closes both its sockets; a listener that ends (error or panic) closes exactly its socket.", "quantifier": "every process state and live instance", "why_tests_cant": "Ownership effects over all process states.", "anchors": ["rust_ipv8/src/lib.rs:IPv8::start", "rust_ipv8/src/networking/mod.rs:NetworkReceiver::start"]}
{"id": "C65", "title": "Open sockets never clash", "statement": "In every history of IPv8::new, start, drop and listeners that end, no two sockets open in the process have the same port on the same (or the wildcard) host.", "quantifier": "every history of calls, configurations and OS choices", "why_tests_cant": "Invariant over all histories.", "anchors": ["rust_ipv8/src/lib.rs:IPv8::new", "rust_ipv8/src/networking/mod.rs:NetworkSender::new", "rust_ipv8/src/networking/mod.rs:NetworkReceiver::new"]}
{"id": "C66", "title": "Listeners of one process do not interfere", "statement": "With any number of started listeners sharing the global thread pool, in every interleaving, what each listener does is an execution of that listener alone: exactly-once, in-order delivery and all other single-listener properties hold for each of them.", "quantifier": "every pool size, every number and order of started listeners, every interleaving", "why_tests_cant": "Concurrency of several listeners and all schedules.", "anchors": ["rust_ipv8/src/networking/mod.rs:NetworkReceiver::start", "rust_ipv8/src/networking/mod.rs:NetworkReceiver::listen", "rust_ipv8/src/lib.rs:IPv8::new"]}
{"id": "C67", "title": "Receivers run on at most the configured number of threads", "statement": "At no moment are more receiver calls in progress in the process than the pool has threads, and capacity is never leaked: when every listener is stopped (also by a panic) or waiting in poll, no call is in progress.", "quantifier": "every pool size and interleaving, every moment", "why_tests_cant": "All schedules and crash points.", "anchors": ["rust_ipv8/src/lib.rs:IPv8::new", "rust_ipv8/src/networking/mod.rs:NetworkReceiver::listen"]}
{"id": "C68", "title": "The shared pool neither deadlocks nor livelocks", "statement": "With at least one worker, unless every listener is stopped or blocked in poll, some listener or receiver can take a non-failing step; and the number of steps is bounded linearly in what the outside world does (listeners started, datagrams, poll timeouts).", "quantifier": "every pool size >= 1 and every interleaving", "why_tests_cant": "Progress over all schedules.", "anchors": ["rust_ipv8/src/networking/mod.rs:NetworkReceiver::listen"]}
{"id": "C69", "title": "Slow receivers of one instance starve the others", "statement": "A waiting receiver can be called exactly when fewer calls are in progress in the whole process than the pool has threads; so, for every pool size, one instance whose receivers do not return can keep every other instance from delivering anything. (The expected form, that instances are isolated from each other's slow receivers, is false.)", "quantifier": "every pool size, every interleaving", "why_tests_cant": "Existence and permanence of a starving schedule for every pool size.", "anchors": ["rust_ipv8/src/networking/mod.rs:NetworkReceiver::listen", "rust_ipv8/src/lib.rs:IPv8::new"]}
{"id": "C70", "title": "From the socket to the community handler", "statement": "With a receiver that forwards packets to a CommunityRegistry, the handler of a registered community is called exactly once per received datagram that is a message for it (00 02, its id, a type that is not deprecated), in order of reception, with decoded header, packet with cursor 0 and sender; and for nothing else. At every moment at most the datagram being dispatched is missing.", "quantifier": "every schedule, every traffic, every registry", "why_tests_cant": "Composition of all schedules with all byte strings.", "anchors": ["rust_ipv8/src/networking/mod.rs:NetworkReceiver::listen", "rust_ipv8/src/community/mod.rs:CommunityRegistry::forward_message"]}
{"id": "C71", "title": "A signed message travels from API to API", "statement": "A packet made of header, authentication payload, payloads, then signed and sent: once the listener has received its bytes, among any other datagrams, the handler of the addressed community has been called with a deserializer that yields the header, verifies as true and gives back all payloads in order.", "quantifier": "every key, payload list, surrounding traffic and schedule", "why_tests_cant": "End-to-end over all payloads, traffic and schedules.", "anchors": ["rust_ipv8/src/serialization/mod.rs:Packet::sign", "rust_ipv8/src/serialization/mod.rs:PacketDeserializer::verify", "rust_ipv8/src/networking/mod.rs:NetworkSender::send", "rust_ipv8/src/community/mod.rs:CommunityRegistry::forward_message"]}
{"id": "C72", "title": "Authenticity against an arbitrary network", "statement": "If a handler pops the header and verify returns true for a key pk, and no packet that arrived is a forgery (a message with a valid signature under pk that its owner did not sign), then the packet is one the owner signed followed by a signature, the deserializer holds exactly the signed message behind its authentication payload, and the signed header names this community and this message type: nothing can be replayed into another community or as another type.", "quantifier": "every traffic (the network is the adversary), every schedule and registry", "why_tests_cant": "Universal over adversarial inputs.", "anchors": ["rust_ipv8/src/serialization/mod.rs:PacketDeserializer::verify", "rust_ipv8/src/serialization/mod.rs:PacketDeserializer::verify_with", "rust_ipv8/src/community/mod.rs:CommunityRegistry::forward_message"]}
{"id": "C73", "title": "There is no replay protection", "statement": "The handler runs on a message exactly as often as the listener received it, so whoever can send datagrams can make it run on the same signed message any number of times. (The expected form, that a message is handled at most once, is false.)", "quantifier": "every message and every number of copies", "why_tests_cant": "Universal over messages, counts and schedules.", "anchors": ["rust_ipv8/src/networking/mod.rs:NetworkReceiver::listen", "rust_ipv8/src/community/mod.rs:CommunityRegistry::forward_message"]}
{"id": "C74", "title": "String fields are exact", "statement": "next_payload of a String succeeds exactly if an 8-byte big-endian length, that many bytes, and these bytes well-formed UTF-8 (the encoding of a sequence of Unicode scalar values) are there; the result is exactly those bytes and the cursor is behind them. Otherwise it is an Err and nothing moves. No bytes make it panic.", "quantifier": "every byte string and cursor position", "why_tests_cant": "hostile strings: overlong forms, surrogates, truncated characters, huge lengths", "anchors": ["rust_ipv8/src/serialization/mod.rs: next_payload"]}
{"id": "C75", "title": "Tags of bool, Option and enum fields are checked", "statement": "next_payload of a bool accepts exactly the bytes 0 and 1; of an Option<T> the byte 0 (None) and the byte 1 followed by whatever reading a T there gives; of an enum a 4-byte index of an existing variant followed by whatever reading the content of that variant gives. Every other tag is an Err that leaves the deserializer where it was.", "quantifier": "every byte string, position, content type and enum with any number of variants", "why_tests_cant": "all tags, all enums", "anchors": ["rust_ipv8/src/serialization/mod.rs: next_payload"]}
{"id": "C76", "title": "Vec fields have exactly the announced number of elements", "statement": "next_payload of a Vec<T> is, behind an 8-byte count n, exactly n reads of a T one after the other, all or nothing; the result has n elements, and a count for which not even the shortest possible elements fit into the packet is an Err. The exception, which a user should know: for elements that may occupy no bytes, 8 bytes of packet make a vector of any length below 2^64.", "quantifier": "every element type without authentication payload, byte string and position", "why_tests_cant": "counts up to 2^64-1, all element types", "anchors": ["rust_ipv8/src/serialization/mod.rs: next_payload"]}
{"id": "C77", "title": "Structs are transparent on the wire", "statement": "Adding a struct has the same effect as adding its fields one after the other in declaration order, and reading a struct gives the same result as reading its fields one after the other, except that a failure leaves packet and cursor where they were.", "quantifier": "every struct type, nested to any depth, and every value, byte string and position (reading: without authentication payload)", "why_tests_cant": "all types and values", "anchors": ["rust_ipv8/src/serialization/mod.rs: Packet::add, next_payload"]}
{"id": "C78", "title": "Signed integers are big-endian two's complement", "statement": "next_payload of an i8, i16, i32 or i64 succeeds whenever 1, 2, 4 or 8 bytes are there, gives the number whose big-endian two's complement these are, and moves the cursor by their number.", "quantifier": "every byte string and position", "why_tests_cant": "all bit patterns", "anchors": ["rust_ipv8/src/serialization/mod.rs: next_payload"]}
{"id": "C79", "title": "The thread pool is set up once under concurrent IPv8::new", "statement": "When several threads call IPv8::new at the same time, rayon's global pool is built at most once, no call opens a socket before the attempt is over, the pool gets the thread count of the configuration of the call that built it (unless the rest of the program set it up first), and a failure to build it is returned by exactly that call and by no other.", "quantifier": "every interleaving of any number of concurrent calls of IPv8::new with each other, with start, drop, stopping listeners, other sockets and other uses of rayon", "why_tests_cant": "needs all schedules of the Once and the calls", "anchors": ["rust_ipv8/src/lib.rs: THREADPOOL_START, IPv8::new"]}
{"id": "C80", "title": "Sockets have exactly one owner and none leaks, under any interleaving", "statement": "At every moment the open sockets are exactly those owned by a call in progress, a live IPv8 value, a listening thread or the rest of the program, each by exactly one; no two of them clash; every live value has its two sockets open on its configured addresses; and when no call is in progress nothing else is open: failed calls, dropped values, the sender of a started value and stopped listeners have closed theirs.", "quantifier": "every reachable state of every interleaving", "why_tests_cant": "leaks depend on the schedule and the failure point", "anchors": ["rust_ipv8/src/lib.rs: IPv8::new, IPv8::start", "rust_ipv8/src/networking/mod.rs: NetworkSender::new, NetworkReceiver::new, NetworkReceiver::start"]}
{"id": "C81", "title": "Racing for an address: exactly one wins, and 'address in use' is never spurious", "statement": "Two live values never have clashing fixed addresses; a bind fails with 'address in use' only if a socket on a clashing address is open at that moment, owned by somebody else (or, for the sender, the call's own receiving socket); and if any number of threads race to create instances sending from the same address, exactly one call succeeds and all others return 'address in use'.", "quantifier": "every interleaving, any number of threads", "why_tests_cant": "all schedules of the race", "anchors": ["rust_ipv8/src/lib.rs: IPv8::new", "rust_ipv8/src/networking/mod.rs: NetworkSender::new, NetworkReceiver::new"]}
{"id": "C82", "title": "Concurrent IPv8::new neither deadlocks nor livelocks", "statement": "In every reachable state every call in progress can take a step or waits for another thread that is building the pool and can take a step; a call takes at most eight steps of its own; with n threads inside new, at most 8n further steps of calls are possible, after which all have returned.", "quantifier": "every reachable state, schedule and number of threads", "why_tests_cant": "absence of deadlock is a property of all schedules", "anchors": ["rust_ipv8/src/lib.rs: THREADPOOL_START, IPv8::new"]}
{"id": "C83", "title": "An uninterrupted IPv8::new behaves like the sequential one", "statement": "A call of IPv8::new whose steps are not interleaved with other steps returns the same error, or binds the same two addresses, as the sequential model (C54-C57) says for the sockets open at its start.", "quantifier": "every state in which it can be called, every configuration and environment", "why_tests_cant": "ranges over all states", "anchors": ["rust_ipv8/src/lib.rs: IPv8::new"]}
{"id": "C84", "title": "IPv8::new is atomic (refuted)", "statement": "One would like concurrent calls of IPv8::new to have the effect of running them one after the other in some order. Refuted: with two configurations that swap receiving and sending port, the first of two sequential calls succeeds in either order, but run concurrently both calls can return 'address in use' and no instance exists.", "quantifier": "there are configurations and a schedule", "why_tests_cant": "needs a particular schedule", "anchors": ["rust_ipv8/src/lib.rs: IPv8::new"]}
{"id": "C85", "title": "Listeners on a network are isolated", "statement": "In every execution of any number of senders and receivers on any number of hosts, what a started receiver's handlers are called with is determined by what the network delivered to its own socket: each handler is called, once per received datagram and in order, with the first buffersize bytes and the source; other sockets and programs have no influence. After the receiver is dropped, its process ended, or its listener stopped by an error or a panic, its handlers are never called again and its socket is closed for good.", "quantifier": "every topology, every history of binds, sends, drops, foreign traffic, deliveries and listener steps, with loss, duplication and reordering", "why_tests_cant": "ranges over all schedules, network behaviours and numbers of sockets", "anchors": ["rust_ipv8/src/networking/mod.rs: NetworkReceiver::new, start, listen, add_receiver", "rust_ipv8/src/lib.rs: IPv8"]}
{"id": "C86", "title": "Nothing is invented", "statement": "Every on_receive call, on any host, is caused by a datagram that somebody put on the network before, addressed to the receiver's port and host and delivered to it, and passes exactly that datagram's bytes (cut at buffersize) and source address.", "quantifier": "every call in every execution of the network", "why_tests_cant": "ranges over all schedules, network behaviours and numbers of sockets", "anchors": ["rust_ipv8/src/networking/mod.rs: listen"]}
{"id": "C87", "title": "Source addresses: genuine without forgers, otherwise worthless", "statement": "If everything on the network was sent with NetworkSender::send, the address passed to on_receive has the port (and, unless bound to the wildcard, the IP) of the sender's socket, and the bytes are those of the packet it sent. Refuted in general: whoever can reach the socket chooses the source address handlers are given, without any NetworkSender.", "quantifier": "every execution without foreign datagrams; every topology, address, source and packet for the refutation", "why_tests_cant": "ranges over all schedules, network behaviours and numbers of sockets", "anchors": ["rust_ipv8/src/networking/mod.rs: NetworkSender::send, listen"]}
{"id": "C88", "title": "Replying to the source address (refuted)", "statement": "One expects that a datagram sent to the address given to on_receive reaches the peer's handlers. It never does between two IPv8 instances: NetworkSender sends from its own socket, so while that socket lives every datagram sent back to the source address is delivered to it, and nothing ever reads it.", "quantifier": "every topology without address translation, every execution, every reply", "why_tests_cant": "ranges over all schedules, network behaviours and numbers of sockets", "anchors": ["rust_ipv8/src/networking/mod.rs: NetworkSender::new, send", "rust_ipv8/src/lib.rs: IPv8::new"]}
{"id": "C89", "title": "Addresses are exclusive and reusable", "statement": "On every host, no two open sockets created by NetworkSender::new or NetworkReceiver::new ever have clashing addresses; an address can be bound exactly when no open socket clashes with it, so it becomes available when its owner is dropped or its listener ends, and not earlier.", "quantifier": "every reachable state, every pair of sockets, every address with a port", "why_tests_cant": "ranges over all schedules, network behaviours and numbers of sockets", "anchors": ["rust_ipv8/src/networking/mod.rs: NetworkSender::new, NetworkReceiver::new"]}
{"id": "C90", "title": "Packets can get through", "statement": "Whenever a sender sends a packet that fits the buffer to a receiver's address, the receiver is listening with nothing unread, and the network delivers the datagram, an execution without failures follows in which every handler is called exactly once with exactly the packet's bytes and the sender's address.", "quantifier": "every reachable state, sender, receiver, packet and address, including sockets bound to the wildcard", "why_tests_cant": "ranges over all schedules, network behaviours and numbers of sockets", "anchors": ["rust_ipv8/src/networking/mod.rs: NetworkSender::send, listen"]}
{"id": "C91", "title": "From any host to the handler", "statement": "On a network of any number of hosts and programs, for a receiver that forwards packets to a CommunityRegistry: the handler of a registered community is called exactly once, in order, for each datagram delivered to the receiver's socket that is (after truncation) a message for that community with a type that is not deprecated; and every call of it, at any moment, has as its cause such a datagram that somebody sent before, and passes its header, bytes and source.", "quantifier": "every topology, history, host, registry and community", "why_tests_cant": "ranges over all schedules, network behaviours, programs and messages", "anchors": ["rust_ipv8/src/networking/mod.rs: listen", "rust_ipv8/src/community/mod.rs: CommunityRegistry::forward_message"]}
{"id": "C92", "title": "A signed message crosses the network", "statement": "If a peer builds a packet (header, authentication payload, any payloads), signs it and sends it with NetworkSender::send, and the network delivers it, then whatever else happens, once the receiver has been called for everything delivered, the community's handler has been called with a deserializer from which it pops the header, verifies to true and reads back all payloads.", "quantifier": "every signing key, payload sequence, topology and history", "why_tests_cant": "ranges over all schedules, network behaviours, programs and messages", "anchors": ["rust_ipv8/src/networking/mod.rs: NetworkSender::send, listen", "rust_ipv8/src/community/mod.rs: forward_message", "rust_ipv8/src/serialization/mod.rs: Packet::sign, PacketDeserializer::verify"]}
{"id": "C93", "title": "Network-wide authenticity", "statement": "If nobody ever sent a forgery (a datagram of which some beginning is a message with a valid signature under key K that K's owner did not sign), then whenever any handler on any host verifies a packet carrying K to true, K's owner signed exactly the bytes left in the deserializer, for that community and message type.", "quantifier": "every topology, history with arbitrary foreign traffic, replay, truncation and reordering; every set of honestly signed messages", "why_tests_cant": "ranges over all schedules, network behaviours, programs and messages", "anchors": ["rust_ipv8/src/serialization/mod.rs: PacketDeserializer::verify", "rust_ipv8/src/community/mod.rs: forward_message", "rust_ipv8/src/networking/mod.rs: listen"]}
{"id": "C94", "title": "Messages can reach their handler", "statement": "From every reachable state in which a sender has a message that fits the buffer for the address of a receiver that is listening with nothing unread, if the network delivers it, an execution without failures follows in which the handler of the addressed community runs exactly once, on exactly this message.", "quantifier": "every reachable state, message and registry", "why_tests_cant": "ranges over all schedules, network behaviours, programs and messages", "anchors": ["rust_ipv8/src/networking/mod.rs: NetworkSender::send, listen", "rust_ipv8/src/community/mod.rs: forward_message"]}
{"id": "C95", "title": "char fields are exact", "statement": "next_payload of a char succeeds exactly if the bytes at the cursor begin with the UTF-8 encoding of a Unicode scalar value; the result is that character and the cursor moves behind its encoding. Otherwise (surrogates, overlong forms, stray or missing continuation bytes, values above 0x10FFFF, no bytes) it is an Err and nothing moves.", "quantifier": "every byte string and cursor position", "why_tests_cant": "all 2^32 four-byte beginnings, all characters", "anchors": ["rust_ipv8/src/serialization/mod.rs: next_payload"]}
{"id": "C96", "title": "128-bit integers and floats are bit-exact", "statement": "next_payload of a u128 or i128 takes 16 bytes, of an f32 4 bytes, of an f64 8 bytes, big-endian (i128 in two's complement, floats as their bits), and accepts every bit pattern as it is, NaNs with their payload included; with fewer bytes left it is an Err and nothing moves.", "quantifier": "every byte string and position", "why_tests_cant": "all bit patterns", "anchors": ["rust_ipv8/src/serialization/mod.rs: next_payload"]}
{"id": "C97", "title": "next_payload with hand-written impls moves by the re-serialized size", "statement": "For a payload type whose Serialize and Deserialize impls are arbitrary: next_payload returns the parsed value if it can be serialized again and moves the cursor by the length of that serialization, which is behind the bytes parsed exactly if both have the same length; a value that cannot be serialized is not returned and nothing moves; a serialization longer than what is left puts the cursor behind the packet, and every later next_payload panics. Payloads whose impls fit together (a value is read back from its own bytes whatever follows) can be added in any mixture and are read back in order.", "quantifier": "every pair of (stateless) impls, packet and position; every list of such payloads", "why_tests_cant": "all user-defined impls", "anchors": ["rust_ipv8/src/serialization/mod.rs: next_payload, Packet::add"]}
{"id": "C98", "title": "BTreeMap payloads", "statement": "next_payload of a BTreeMap<K, V> succeeds exactly if reading a vector of pairs there does, and gives the last value of every key; the cursor moves behind the pairs if no key comes twice. The exception a user should know: if a key comes twice the cursor stays inside the map (short by the bytes of the replaced pairs), so that a sender can make the receiver read the following payloads from other bytes than were meant. A map that was added is read back.", "quantifier": "every key and value type without authentication payload, every total order of the keys, byte string and position", "why_tests_cant": "hostile maps with repeated keys", "anchors": ["rust_ipv8/src/serialization/mod.rs: next_payload"]}
{"id": "C99", "title": "No datagram waits for ever while traffic goes on", "statement": "In every infinite execution of the listener without failures, with a fair scheduler, a poll that reports pending readiness, and infinitely many arriving datagrams, each datagram that ever arrived is at some time handed to every receiver, the k-th arrival as that receiver's k-th packet, however large the backlog. (Once traffic stops this fails: C52.)", "quantifier": "every configuration, every infinite sequence of states and steps (arrival pattern, scheduling of listener and receivers, timeouts)", "why_tests_cant": "a statement about infinite executions: no finite run settles that something eventually happens", "anchors": ["rust_ipv8/src/networking/mod.rs: NetworkReceiver::listen"]}
{"id": "C100", "title": "The real signature scheme meets what the other properties assume of it", "statement": "Ed25519 as the crate uses it (RFC 8032, on SHA-512) gives 32-byte public keys and 64-byte signatures, accepts every 32-byte seed, and every signature it makes verifies under the signer's public key. Hence a packet carrying the signer's key and signed with any key pair is always verified and read back by the receiver, with no assumption about cryptography left.", "quantifier": "every seed, message, payload sequence; every way of decoding PKCS#8", "why_tests_cant": "every key and message: 2^256 seeds, and a wrong carry or sign would show up for a tiny fraction of them", "anchors": ["rust_ipv8/src/crypto/signature.rs: KeyPair, sign, verify", "rust_ipv8/src/serialization/mod.rs: Packet::sign, PacketDeserializer::verify"]}
{"id": "C101", "title": "Verification accepts exactly the valid signatures", "statement": "verify (and verify_raw, verify_packet) returns true exactly if the key reads as a point A of the curve, the signature is an encoded point R followed by a number S below the group order L, and S B - k A = R in the group of the curve, k being the SHA-512 of R, the key and the message modulo L.", "quantifier": "every key, message and signature byte string, of every length", "why_tests_cant": "all byte strings, including malformed points and numbers out of range", "anchors": ["rust_ipv8/src/crypto/signature.rs: verify, verify_raw, verify_packet"]}
{"id": "C102", "title": "Signed packets are not malleable in their last 32 bytes", "statement": "Two packets that differ at most in their last 32 bytes are not both accepted by verify_with under the same key; so a signed packet whose last 32 bytes are replaced by anything else is rejected.", "quantifier": "every key (not only honest ones), packet and replacement", "why_tests_cant": "2^256 replacements for every packet; rests on the order of the base point being the prime L", "anchors": ["rust_ipv8/src/serialization/mod.rs: PacketDeserializer::verify_with", "rust_ipv8/src/crypto/signature.rs: verify"]}
{"id": "C103", "title": "Acceptance under an embedded key does not prove that anybody signed", "statement": "The key 01 00 .. 00 (the neutral element) is accepted as a public key, and so are exactly three other ways to write it (01 00 .. 00 80, ee ff .. ff 7f, ee ff .. ff ff); under each of them the signature 01 00 .. 00 followed by 32 zero bytes is valid for every message. verify(), which takes the key from the packet itself, therefore accepts any content under these four keys; users must check who the key belongs to.", "quantifier": "every message and cursor", "why_tests_cant": "for every message", "anchors": ["rust_ipv8/src/serialization/mod.rs: PacketDeserializer::verify, verify_with"]}
{"id": "C104", "title": "Keys and signatures are exactly those of RFC 8032", "statement": "A key pair made from a 32-byte seed has exactly the public key RFC 8032 5.1.5 defines (SHA-512 of the seed, pruned, times B, encoded), and signing a packet with it appends exactly the signature of 5.1.6: signatures are deterministic and the same as those of any other implementation of the RFC.", "quantifier": "every 32-byte seed and every message below 2^64 bytes", "why_tests_cant": "2^256 seeds, unbounded messages; test vectors cover a handful", "anchors": ["rust_ipv8/src/crypto/signature.rs: KeyPair::from_seed_unchecked, public_key, sign", "rust_ipv8/src/serialization/mod.rs: Packet::sign"]}
{"id": "C105", "title": "from_bytes accepts exactly the consistent PKCS#8 v2 documents", "statement": "KeyPair::from_bytes(b) returns the key pair of a seed exactly when b is a version 2 PKCS#8 document of RFC 5958/8410 in DER (shorter than 64 KiB), with or without attributes, whose public key is the RFC 8032 public key of its seed. All other byte strings give KeyRejectedError; it never panics.", "quantifier": "all byte strings", "why_tests_cant": "the set of inputs is infinite; tests only create keys", "anchors": ["rust_ipv8/src/crypto/signature.rs: KeyPair::from_bytes, KeyPair::new"]}
{"id": "C106", "title": "KeyPair::new fails only without randomness", "statement": "If the system's random generator fails, KeyPair::new returns KeyGenerationError; otherwise, whatever the 32 random bytes are, it returns the key pair which these bytes have as a seed, with its RFC 8032 public key.", "quantifier": "all outcomes of the random generator", "why_tests_cant": "2^256 seeds; the tests draw a few at random", "anchors": ["rust_ipv8/src/crypto/signature.rs: KeyPair::from_bytes, KeyPair::new"]}
{"id": "C107", "title": "Key documents are canonical; old ones are rejected", "statement": "For every key pair exactly one byte string without attributes is read as it, the document KeyPair::new generates for the seed. Version 1 documents (RFC 8410, section 7, without a public key) are rejected whatever the seed.", "quantifier": "all byte strings and seeds", "why_tests_cant": "for all byte strings", "anchors": ["rust_ipv8/src/crypto/signature.rs: KeyPair::from_bytes, KeyPair::new"]}
{"id": "C108", "title": "Signed packets are not unique", "statement": "\"verify_with accepts, for a key pair and a content, only the packet Packet::sign makes\" is false: for every key pair made from a seed and every content, the holder of the seed can make a valid signature for every multiple r B of the base point, so there is always another accepted packet with the same content than the one sign makes (while the second half of the signature is determined by the rest, C102). Packets must not be compared by their bytes to detect repetitions.", "quantifier": "every seed, content, multiple of the base point, cursor", "why_tests_cant": "for every key and content; sign itself never produces the other signatures", "anchors": ["rust_ipv8/src/serialization/mod.rs: PacketDeserializer::verify_with, Packet::sign", "rust_ipv8/src/crypto/signature.rs: sign, verify"]}
{"id": "C109", "title": "No packet delivered to a running instance waits for ever", "statement": "In every infinite execution of any number of programs on any hosts: if a NetworkReceiver is started and not dropped, nothing fails there, its host's scheduler is fair to its threads, poll reports readiness that is there, and the network goes on delivering to it, then the i-th datagram delivered to its socket (also before the start) is at some time the i-th packet of every receiver, whatever happens elsewhere; and a packet that some NetworkSender sends and the network delivers there is handed, after that, to every receiver: exactly its bytes if they fit the buffer, with the datagram's source address.", "quantifier": "all infinite executions, topologies, sockets, configurations, numbers of receivers, datagrams", "why_tests_cant": "a liveness property of infinite executions of a distributed system", "anchors": ["rust_ipv8/src/networking/mod.rs: NetworkReceiver::start, listen, NetworkSender::send"]}
{"id": "C110", "title": "A signed message is eventually handled, from API to API", "statement": "In every infinite execution: a peer builds a packet for a community (header, authentication payload with its key, any readable payloads), signs it and sends it; the network delivers it to a started receiver that is not dropped, where nothing fails, deliveries go on and the environment is fair (as in C109). Then after the delivery the receiver that forwards to the community's registry is called with exactly this packet, and the community's handler is called once for it, with a deserializer from which the header is popped, verify returns true and all payloads are read back in order. With Ed25519 itself (RFC 8032, keys from a seed) nothing is assumed of the cryptography.", "quantifier": "all infinite executions, topologies, keys, payload lists, configurations, registries", "why_tests_cant": "liveness over infinite executions of a distributed system, for all payload sequences and keys", "anchors": ["rust_ipv8/src/serialization/mod.rs: Packet, PacketDeserializer", "rust_ipv8/src/networking/mod.rs: NetworkSender::send, listen", "rust_ipv8/src/community/mod.rs: CommunityRegistry::forward_message, Community::receive", "rust_ipv8/src/crypto/signature.rs"]}
{"id": "C111", "title": "While receivers come back, no listener of a process is starved of the shared pool", "statement": "In every infinite execution of a process with any number of started instances sharing the global thread pool (at least one thread): if whenever receiver calls are in progress one of them comes back later, scheduler and pool are (strongly) fair to a listener, nothing fails at it, poll reports readiness and its traffic goes on, then every datagram that ever arrived at it is eventually handed to each of its receivers, the k-th datagram as the k-th packet. (C69 shows that this fails if receivers do not come back.)", "quantifier": "all infinite executions, numbers of instances, pool sizes, configurations, datagrams", "why_tests_cant": "liveness over infinite schedules of arbitrarily many listeners", "anchors": ["rust_ipv8/src/networking/mod.rs: listen, start", "rust_ipv8/src/lib.rs: IPv8::new (thread pool)"]}
{"id": "C112", "title": "The Python functions are those of RFC 8032", "statement": "create_signature(seed, key, data) returns something exactly when seed has 32 bytes and key is its public key by RFC 8032 5.1.5, and then data followed by the signature of RFC 8032 5.1.6; otherwise it raises KeyError; it never panics. verify_signature says true exactly for a header, an authentication payload, any bytes and a signature over all of it valid (5.1.7) under the embedded key, and returns these bytes. What either language signs, the other one accepts.", "quantifier": "all seeds, keys, data, packets", "why_tests_cant": "all byte strings, and an equivalence with a definition in the group of the curve", "anchors": ["rust_ipv8_in_python/src/borrowedbundler.rs: borrowed_create_signature, borrowed_verify_signature", "rust_ipv8/src/crypto/signature.rs", "rust_ipv8/src/serialization/mod.rs: verify, verify_with, Packet::sign"]}
{"id": "C113", "title": "A verified message was meant for me, now, by whoever sent it (refuted)", "statement": "A message signed once for a community can be sent, by any sockets on any hosts and any number of times, to a listener on any host; the handler of that community there is called for every copy, with the address of whoever sent it, and each time verification succeeds and the payloads are read. So verification binds a message to its signer, community, type and contents (C72, C93) but not to recipient, time, number of copies or sender.", "quantifier": "all seeds, messages, topologies, reachable states of the network, lists of senders, listeners, registries", "why_tests_cant": "every reachable state of any number of hosts, any number of copies", "anchors": ["rust_ipv8/src/serialization/mod.rs: verify, Packet::sign", "rust_ipv8/src/community/mod.rs: forward_message", "rust_ipv8/src/networking/mod.rs: NetworkSender::send, listen"]}
{"id": "C114", "title": "The listener survives spurious readiness (refuted)", "statement": "If the operating system reports readiness when nothing is there, or discards a datagram it has reported (Linux does so when the checksum is wrong), the listener ends with WouldBlock and nothing that arrives later is received; in every such execution, up to that point, each receiver is still called exactly once per received datagram, in order, with its bytes and source, and only datagrams the operating system discarded are missing. Without false alarms or discarded datagrams the listener never ends that way.", "quantifier": "all executions of the listener loop with any number of false alarms and discarded datagrams at any point, any receivers, buffer size and initial queue", "why_tests_cant": "depends on the timing of readiness reports and discards; every schedule", "anchors": ["rust_ipv8/src/networking/mod.rs: listen"]}
{"id": "C115", "title": "Work stealing delivers as promised", "statement": "However rayon splits the receivers of a datagram into jobs, whichever thread takes which job, and although a thread that waits for a job executes jobs of other listeners on top of it: what listeners and receivers are seen to do is an execution of listeners sharing a plain pool of that many threads. So each receiver of each listener is called exactly once, in order, per datagram received, and never more receivers are being executed than the pool has threads.", "quantifier": "all executions, numbers of threads, listeners, receivers, datagrams, all ways to split and to steal, receivers that return, panic or never return", "why_tests_cant": "every interleaving of any number of threads and every way of splitting", "anchors": ["rust_ipv8/src/networking/mod.rs: listen (scope_fifo, spawn_fifo, par_iter)", "rust_ipv8/src/lib.rs: IPv8::new (global pool)"]}
{"id": "C116", "title": "Work stealing neither deadlocks nor livelocks", "statement": "With at least one thread, in every reachable state of the process all listeners are stopped or blocked in poll, or some thread can take a step that is neither a failure nor a doing of the outside world, although threads pile jobs of other listeners on top of jobs they wait for. The total number of steps, including taking, splitting, waiting and looking for jobs, is bounded linearly by the listeners started, datagrams arrived and polls timed out.", "quantifier": "all executions, numbers of threads, listeners, receivers and datagrams, ways to split and to steal", "why_tests_cant": "absence of deadlock over every schedule; a bound for every execution", "anchors": ["rust_ipv8/src/networking/mod.rs: listen (scope_fifo, spawn_fifo, par_iter)"]}
{"id": "C117", "title": "A datagram whose receivers have returned is finished (refuted)", "statement": "On a work-stealing pool of any size from 2 threads there is an execution without failures, in which threads take jobs in rayon's own order of preference, in which the only receiver of a listener has returned, one receiver of another listener is being executed in the whole process and all other threads are free; and as long as that one does not return, the first listener never receives another datagram: the thread that waits for its datagram has taken the other listener's receiver on top.", "quantifier": "all pool sizes from 2, datagrams, configurations with one receiver each, and all continuations", "why_tests_cant": "needs a particular schedule of stealing, and speaks about every continuation", "anchors": ["rust_ipv8/src/networking/mod.rs: listen (scope_fifo, spawn_fifo, par_iter)"]}
{"id": "C118", "title": "No listener is starved by work stealing as long as receivers come back", "statement": "In every infinite execution of a process on a work-stealing pool with at least one thread in which only finitely many instances are started: if every call of a receiver comes back (returns or panics), the scheduler is fair to the pool's threads and the pool to its jobs, every listener that is dispatching a datagram finishes it, although threads execute jobs of other listeners on top of the jobs they wait for. If also the scheduler is fair to a listener's thread, nothing fails at it and traffic goes on, every datagram that ever arrived at it is at some time handed to each of its receivers, in order. Without the bound on the number of instances this is false: on every pool of two threads or more there is a fair execution without failures, in rayon's own order of preference, in which every receiver comes back, the only receiver of the first listener has returned, and its first datagram is never finished.", "quantifier": "all infinite executions, numbers of threads (from 1), listeners, receivers and datagrams, ways to split and to steal", "why_tests_cant": "a statement about what eventually happens in every fair infinite execution", "anchors": ["rust_ipv8/src/networking/mod.rs: listen (scope_fifo, spawn_fifo, par_iter)", "rust_ipv8/src/lib.rs: IPv8::new (global pool)"]}
{"id": "C119", "title": "Taking jobs in rayon's order does not deadlock", "statement": "If threads take jobs in rayon's own order of preference (the latest job of their own, else the oldest of another thread, else the next dispatch of a listener), then with at least one thread, in every reachable state all listeners are stopped or blocked in poll, or some thread can take a step that is neither a failure nor a doing of the outside world; and every such execution is one of the work-stealing pool in which any job may be taken, so what is proved there holds.", "quantifier": "all executions, numbers of threads, listeners, receivers and datagrams", "why_tests_cant": "absence of deadlock over every schedule", "anchors": ["rust_ipv8/src/networking/mod.rs: listen (scope_fifo, spawn_fifo, par_iter)"]}
{"id": "C120", "title": "A pool of one thread serves datagrams in the order of their receipt and starves nobody", "statement": "On a pool of one thread that takes jobs in rayon's order, the datagrams received by all listeners of the process are finished in the order in which they were received, and a receiver is only called for the first datagram not finished. In every infinite such execution in which the thread is scheduled and every call of a receiver comes back, every dispatch ends, even if more and more instances are started (which is false from two threads on, C118).", "quantifier": "all executions of a process with one worker thread, numbers of listeners, receivers and datagrams", "why_tests_cant": "an order over every schedule; a statement about what eventually happens in every infinite execution", "anchors": ["rust_ipv8/src/networking/mod.rs: listen (scope_fifo, spawn_fifo, par_iter)", "rust_ipv8/src/lib.rs: IPv8::new (global pool)"]}
{"id": "C121", "title": "The error of a failed read or write says what is wrong", "statement": "If reading a payload fails, the error is \"unexpected end\" or names a content the type does not allow (a bool, option tag, string, char, enum index or key-blob prefix that occurs in the type); no other error occurs. \"Unexpected end\" is returned exactly if more bytes at the end of the packet could change the outcome of the failed read, every other failure is final; a packet cut anywhere inside a value it contained is answered with it (chars are the exception). The same for headers: bytes missing and a wrong version are told apart. Adding a payload fails only with the error for IPv6 addresses, if it has one, or for too long vectors, if it has one, and leaves the packet unchanged.", "quantifier": "all payload types, packets, cursor positions, values and bytes that may follow", "why_tests_cant": "ranges over all packets and all their continuations", "anchors": ["rust_ipv8/src/serialization/mod.rs: next_payload, peek_header, add", "rust_ipv8/src/serialization/varlen.rs", "rust_ipv8/src/serialization/header.rs", "rust_ipv8/src/networking/address.rs", "rust_ipv8/src/payloads/binmemberauthenticationpayload.rs"]}
{"id": "C122", "title": "as_fixed_size for types other than byte arrays", "statement": "as_fixed_size to any array or integer type succeeds iff the slice has the size of the type and lies at an address that is a multiple of the type's alignment; then the value is the one whose bytes in memory (of the target's byte order) are those of the slice, and the elements of an array are those of the parts of the slice. The bytes of every value are read back as that value. For byte arrays the address does not matter. The form a user would expect, that the outcome depends on the bytes alone, is false: for every type with an alignment above one the same bytes convert at one address and fail at another.", "quantifier": "every integer and (nested) array type, every slice and address, both byte orders, every target's alignments", "why_tests_cant": "the outcome depends on where the allocator put the slice; the tests use byte arrays only", "anchors": ["rust_ipv8/src/util.rs: as_fixed_size"]}
{"id": "C123", "title": "Programs on several hosts, each with its own thread pool: one execution is at once one of the network and one of each pool", "statement": "When any number of programs on any number of hosts run at the same time, each calling its receivers on its own work-stealing thread pool, then what happens at and between the sockets is an execution of the network of independent sockets (C85-C93), and what happens within each program is an execution of its pool with its own listeners (C115-C120), of the same listeners, with the same configuration, receivers and datagrams; no two listeners share a socket. Programs do not restrict each other: whatever a thread of a running program can do by itself, it can do here at any moment, and whatever can be delivered or started can be.", "quantifier": "every topology, every number of programs, pool sizes, hosts, sockets, listeners, receivers; every schedule", "why_tests_cant": "ranges over all interleavings of all threads of all programs with the network", "anchors": ["rust_ipv8/src/networking/mod.rs: NetworkReceiver::start, NetworkReceiver::listen, NetworkSender::send", "rust_ipv8/src/lib.rs: IPv8::new, IPv8::start"]}
{"id": "C124", "title": "A message that is sent and delivered is handled, whatever other programs and listeners do", "statement": "In an infinite execution of such programs: if a packet is sent by any program and the network delivers it to a listener of another one (or the same), before the listener's start or after, it is afterwards handed to each receiver of the listener on one of the threads of the listener's program, with its bytes (if they fit the buffer) and source address. If it was signed for a registered community, that community's handler gets a deserializer from which it can pop the header, verify the signature (true, with Ed25519 as in RFC 8032) and read all payloads. This needs: the program runs on, stops starting listeners, its receivers' calls come back, the scheduler is fair, nothing fails at the listener and datagrams go on being delivered to it. Nothing is assumed of other programs or sockets.", "quantifier": "all infinite executions that satisfy the fairness assumptions, all packets, payloads, seeds, communities, topologies", "why_tests_cant": "liveness over infinite executions with arbitrary interference of other threads and programs", "anchors": ["rust_ipv8/src/networking/mod.rs: NetworkReceiver::listen, NetworkSender::send", "rust_ipv8/src/community/mod.rs: CommunityRegistry::forward_message", "rust_ipv8/src/serialization/mod.rs: PacketDeserializer::verify"]}
{"id": "C125", "title": "Reading takes time and memory linear in the packet", "statement": "Reading a payload with next_payload, whatever it contains and however it fails, takes a number of steps and requests an amount of memory at most proportional to the bytes left in the packet (the constant depends on the type only); for the library's payloads at most 5 steps and 6 bytes per byte left plus 91 steps and 4104 bytes. Looking at the header or taking it takes at most 70 steps and 28 bytes. A handler that reads any sequence of payloads until one fails is linear too, if every payload occupies at least a byte (otherwise the number of reads is added). Exception: types with a vector whose elements may be empty, such as Vec<RawEnd>: there eight bytes cause up to 2^64 - 1 steps and that many elements of memory.", "quantifier": "all payload types (any nesting), all packets and positions in them, all sequences of reads, all sizes of types in memory", "why_tests_cant": "a bound for all inputs and types; tests time a few", "anchors": ["rust_ipv8/src/serialization/mod.rs: PacketDeserializer::next_payload, peek_header, pop_header", "rust_ipv8/src/serialization/varlen.rs", "rust_ipv8/src/serialization/rawend.rs", "rust_ipv8/src/payloads"]}
{"id": "C126", "title": "Headers, packets and signatures as (parts of) payloads", "statement": "Reading a Header as a payload gives the same result and the same position as pop_header, for every packet and cursor. What is written for a header is the version, the id and the low byte of the type; without id or without type an error that says which. A header inside a payload is read back exactly if its id has 20 bytes, its type is below 256 and its size field is 23. A Packet inside a payload is written as 8 bytes of length and its bytes and always read back. Packet::sign is the same as adding the signature of the packet as a payload, which appends its bytes and cannot fail.", "quantifier": "all headers, packets, signatures, positions, following bytes", "why_tests_cant": "all values and positions", "anchors": ["rust_ipv8/src/serialization/header.rs: Header (Serialize, Deserialize)", "rust_ipv8/src/serialization/mod.rs: Packet, pop_header, sign, add", "rust_ipv8/src/crypto/signature.rs: Signature (Serialize, Ipv8Payload)"]}
{"id": "C127", "title": "Deriving a payload type keeps the good properties of its parts", "statement": "For structs, enums, options, vectors and arrays derived from parts with arbitrary Serialize and Deserialize impls: if each part is re-written in as many bytes as it was read from, so is the whole (and next_payload then puts the cursor behind exactly the bytes read, or leaves it and returns an error); if no part panics on any bytes, the whole does not; if all values read from the parts are read again from what is written for them, so are those of the whole; and a value whose parts are read back is read back. All library types without an authentication payload, headers and packets are such parts (a BTreeMap is not).", "quantifier": "all impls of the parts, all nestings, all bytes and values", "why_tests_cant": "all user-defined impls and combinations", "anchors": ["rust_ipv8/src/serialization/mod.rs: next_payload, Packet::add", "rust_ipv8/src/payloads: Ipv8Payload"]}
{"id": "C128", "title": "Building a packet takes time and memory linear in it", "statement": "Adding a payload with Packet::add takes a number of steps at most proportional to the bytes it adds, however long the packet already is (the constant depends on the type only; 6 steps per byte and 26 more for the library's payloads). Packet::new takes four steps per byte of the header. Building a packet from a header and any payloads in any order requests at most 7 bytes of memory per byte of the packet and 24 more, and what it occupies in the end is at most twice its length and 8 bytes. Exception: types with a vector whose elements may be empty, where n elements add eight bytes and take n steps.", "quantifier": "all headers, all payload types (any nesting) and values, all sequences of adds, all packets to add to", "why_tests_cant": "a bound for all inputs, types and histories of adds; tests time a few", "anchors": ["rust_ipv8/src/serialization/mod.rs: Packet::new, Packet::add", "rust_ipv8/src/serialization/header.rs", "rust_ipv8/src/serialization/nestedpayload.rs", "rust_ipv8/src/payloads"]}
{"id": "C129", "title": "Communities with state: routing, calls and lifetime", "statement": "Communities may share and change state, answer get_mid differently each time or panic in it, and override receive. Then still: get_mid is called once for each community given to add_community and never again; a packet goes to the community registered last under its id, i.e. whose get_mid returned it when it was added; forward_message runs at most one handler, once, in the state as it is, and returns what it returns, and if none runs nothing changes; without an override, types of the old protocol never reach a handler; every community given to the registry is dropped exactly once (when replaced, when its get_mid panics, or with the registry) and none of its code runs after that.", "quantifier": "all communities (user code with any state), all sequences of add_community and forward_message calls with any packets, all changes of the state in between, all drop orders", "why_tests_cant": "user code, state and histories are unbounded; tests register a few stateless communities", "anchors": ["rust_ipv8/src/community/mod.rs: Community, CommunityRegistry::add_community, CommunityRegistry::forward_message"]}
{"id": "C130", "title": "Receiving takes bounded memory and linear work", "statement": "However many datagrams arrive, how fast and of whatever size, and however slow the receivers are, the vectors the listener holds never exceed the size of the receive buffer times the number of receivers plus two (three if there are none); while it waits, only the buffer is left. Every byte received is copied exactly three times and once per receiver, and memory is requested for it twice and once per receiver (less only if a receiver panics); what does not fit the buffer or still waits in the socket costs nothing. forward_message then takes at most 90 steps, 21 more per registered community in the worst case of the hash map, and 28 bytes of memory, whatever the packet contains; it does not copy the packet.", "quantifier": "all executions of the listener: all arrivals, interleavings, panics and errors, all buffer sizes and numbers of receivers; all registries and packets", "why_tests_cant": "an upper bound over all traffic and schedules; tests see a few datagrams", "anchors": ["rust_ipv8/src/networking/mod.rs: NetworkReceiver::listen", "rust_ipv8/src/community/mod.rs: CommunityRegistry::forward_message"]}
{"id": "C131", "title": "Receivers with locks and rayon: when is there no deadlock", "statement": "Receivers may lock mutexes, shared with receivers of other listeners and with threads outside of the pool, and use rayon themselves. If all code locks in ascending order, unlocks before it returns, and holds no lock while it is in rayon, then on a pool of at least one thread, however jobs are split and stolen, every execution ends after a number of steps known beforehand, with all datagrams dealt with and all threads at their ends: no deadlock, no livelock. Whatever the code does, a mutex is never locked twice, and every unfinished job was forked by one that a listener is blocked on right now (or by another thread), so nothing of a datagram is left when scope_fifo returns. If receivers hold a lock while they are in rayon this is false: on a pool of three threads, one datagram for three receivers that lock the same mutex around a rayon::join can block the pool and the listener for ever.", "quantifier": "all codes of receivers and other threads, all numbers of threads, listeners, receivers and datagrams, all ways to split, all schedules", "why_tests_cant": "deadlocks of work stealing depend on the schedule; a test sees a few schedules", "anchors": ["rust_ipv8/src/networking/mod.rs: NetworkReceiver::listen, scope_fifo, par_iter", "rust_ipv8/src/lib.rs: THREADPOOL_START, IPv8::new"]}
{"id": "C132", "title": "The Python functions called from several Python threads", "statement": "Any number of Python threads call borrowed_verify_signature and borrowed_create_signature, with any bytes, however the interpreter passes its lock around. Every thread gets for its calls, in order, exactly what the functions return when nobody else is there. At most one thread at a time touches Python objects. There is no deadlock, and no livelock: all threads together take at most three steps per call. While one thread's signature is verified (allow_threads) all others can run to their ends; while a signature is made nobody else gets the lock. The process dies only of a call that would panic on its own, and if any thread makes such a call the process cannot come to its end: one bad datagram of 25 bytes ends all threads.", "quantifier": "all numbers of threads, all programs of calls with all byte strings, all interleavings of the interpreter's lock", "why_tests_cant": "the outcome must be independent of the schedule of the interpreter's lock; a test sees a few schedules", "anchors": ["rust_ipv8_in_python/src/borrowedbundler.rs: borrowed_verify_signature, borrowed_create_signature, py.allow_threads"]}
{"id": "C133", "title": "What == means", "statement": "All value types of the crate, and users' payload types, derive PartialEq. Two values of a payload type are == exactly if they are the same but for the signs of floating-point zeros and contain no NaN; so for types without floating-point numbers (all of the library's) exactly if they are the same in every field (flow information, scope and tunnel flag included); the same holds for headers, packets and deserializers. == is symmetric and transitive, and a value is == itself exactly if it contains no NaN. What next_payload reads back is == what add wrote exactly if that contains no NaN; for introduction responses exactly if it has no tunnel flag. Without floats and introduction payloads two values are == exactly if add writes the same bytes for them; with floats this is false in both directions.", "quantifier": "all payload types of the universe (structs, enums, vectors, options to any depth), all values, all packets they are added to", "why_tests_cant": "assert_eq compares a few values; which differences == overlooks, and for which values it fails on a perfect copy, is a statement about all of them", "anchors": ["derive(PartialEq) in rust_ipv8/src/{networking/address.rs,payloads/*.rs,serialization/*.rs}", "rust_ipv8/src/serialization/mod.rs: Packet::add, PacketDeserializer::next_payload"]}
{"id": "C134", "title": "Verifying before reading does not protect a community (refuted); a guard does", "statement": "A handler that does what the documentation says - pop the header, call verify, read a payload only if it returned true - panics exactly on packets with a header and a complete key blob which is shorter than 10 bytes, or shorter than 74 with the right prefix, or which is followed by so few bytes that the signature overlaps the authentication payload although it is valid. Calling verify first of all, as its documentation literally says, panics on every packet a handler is ever given, because the header is still in front of the cursor. The last case exists: for every community, message type and encryption key there is a packet of 131 bytes, made without a secret, which verify accepts and after which every read panics. Behind a receiver that hands packets to communities, the first such datagram (25 bytes suffice, anybody can make them) is the last one the listener ever receives. With a guard in front (at least 163 bytes, key blob of at least 74) the handler never panics, no genuine message is lost and nothing else changes; and a listener none of whose communities' handlers panics never loses its receiver.", "quantifier": "all packets, all signature schemes (the overlapping packet: the scheme of RFC 8032), all payload types without an authentication payload and all things done with them, all executions of a listener with any datagrams, receivers, communities", "why_tests_cant": "the bad packets are a few among all byte strings, one of them needs a signature that is valid for a message it is part of the key of; that the guard suffices is a statement about all byte strings, that the listener is lost about all later executions", "anchors": ["rust_ipv8/src/serialization/mod.rs: verify, verify_with, next_payload", "rust_ipv8/src/payloads/binmemberauthenticationpayload.rs: Deserialize", "rust_ipv8/src/networking/mod.rs: NetworkReceiver::start", "rust_ipv8/src/community/mod.rs: forward_message, receive"]}
{"id": "C135", "title": "Adding payloads to a signed packet", "statement": "The documentation of sign says that adding payloads afterwards breaks the verification and that nothing checks it. Nothing does: every encodable payload is appended behind the signature. Of all byte strings of one length that agree except for their last 32 bytes at most one can be appended to a packet so that verify_with still accepts it, under any key; so of all values of a payload type of at most 32 bytes (of all 2^64 global times, for instance) at most one does not break the verification. After verification, whatever its verdict, nothing of up to 64 added bytes is left; the signed content is followed by as many bytes of the signature instead. That adding always breaks the verification is false: the 64 raw bytes of a second signature can be added to every signed packet, verify_with accepts and leaves the first signature behind the content.", "quantifier": "all packets, key pairs, public keys, payload types and values, appended byte strings, cursors; the scheme of RFC 8032 where a count is given, any scheme otherwise", "why_tests_cant": "2^64 values for every packet; no test can look for the one that is accepted", "anchors": ["rust_ipv8/src/serialization/mod.rs: Packet::sign, Packet::add, verify_with"]}
{"id": "C136", "title": "What the options of the configuration do and do not do", "statement": "Once sockets are bound only buffersize and whether there is a poll interval influence the network's executions: with any other queue size (from one on), thread count, interval length, default hosts and addresses in the configurations given to start, the executions are the same. IPv8::new depends on the two addresses and the thread count only: any history of calls with configurations that differ otherwise leaves the same sockets, pool, listeners and gives the same answer to the next call. queuesize is not the room for queued messages: every size from one on is as good as any other, any number of messages wait with any of them; with zero the listener never receives anything and can only fail. With a buffer of fewer than 23 bytes no community behind a forwarding receiver ever gets a packet.", "quantifier": "all configurations and replacements of them, all executions of the network and of a listener, all histories of IPv8 values, all queue sizes, datagrams, registries", "why_tests_cant": "that an option has no effect is a statement about all executions with all of its values", "anchors": ["rust_ipv8/src/configuration.rs: Config", "rust_ipv8/src/networking/mod.rs: NetworkReceiver::start, listen", "rust_ipv8/src/lib.rs: IPv8::new"]}
{"id": "C137", "title": "An IPv8 process and its sockets, together", "statement": "A program that creates, uses, starts and drops IPv8 values in a network with any other processes (on the same host too) behaves as the process model and the socket model say at once: the sockets the process holds are exactly those of its live instances and running listeners, open at the addresses the values report and bound as their configurations say; nothing leaks (a socket any IPv8::new ever bound, also one that failed, is owned or closed); a running listener has its instance's buffer size and poll interval, its receivers are exactly those added between new and start, in order, and each of them has been called with exactly the datagrams delivered to that socket - also before the start - and received so far, in order, cut to the buffer size; a listener that stops gives up its socket and address. In every reachable state every call can be made, and nothing a listener or anybody else can do is held back.", "quantifier": "all topologies, configurations, histories of calls on IPv8 values interleaved with all events of all other processes and of the network, all answers of the operating system", "why_tests_cant": "it relates the views of two components over all interleavings of the process, its I/O threads, other processes and the network", "anchors": ["rust_ipv8/src/lib.rs: IPv8, IPv8::new, IPv8::start", "rust_ipv8/src/networking/mod.rs: NetworkReceiver::new, start, listen, add_receiver, NetworkSender::new, send"]}
{"id": "C138", "title": "Several threads with IPv8 values and their sockets, together", "statement": "C137 does not depend on calls being made one after the other: while any number of threads call IPv8::new at once, and others add receivers, start and drop values, and listening threads run and stop, every descriptor of the process is open, at an address, exactly if its socket is; nothing leaks (a socket bound by any step, also of a call that fails later, is closed or belongs to exactly one call in progress, value, listening thread, or to the rest of the program); between its two binds a call's receiving socket is its alone; a value has its two sockets, open and bound as its configuration says, from the moment its call of new bound them; a listening thread serves the receiving socket of a value that new returned, with that value's buffer size and poll interval, and each receiver added to it has been called with exactly the datagrams delivered to that socket and received so far, in order, cut to the buffer size. No step of any thread, listener or other party is held back. The process can be killed at any moment, also in the middle of calls: closing its descriptors closes all its sockets and no others, and every address that clashes with no other process's can be bound again at once.", "quantifier": "all topologies, numbers of threads, configurations, interleavings of the steps of concurrent calls with each other, with listeners, other processes and the network, and all answers of the operating system", "why_tests_cant": "it ranges over all interleavings of several threads, several processes and a network", "anchors": ["rust_ipv8/src/lib.rs: IPv8::new, IPv8::start", "rust_ipv8/src/networking/mod.rs: NetworkReceiver::new, start, listen, add_receiver, NetworkSender::new, send"]}
{"id": "C139", "title": "A panic while the thread pool is built makes IPv8::new unusable for the whole process; an error does not", "statement": "IPv8::new builds the process's thread pool inside a std::sync::Once. If building panics (rather than returns an error) in any call, no call of IPv8::new in the process has returned a value and none ever will: every call that ends, whether it was the one that built, was waiting at the time or comes later, ends with a panic, and never with a value or an error; none binds a socket; there is no value, no listening thread, and every open socket is one the rest of the program opened. Nothing hangs: every call in progress can take a step of its own at once, and the only steps left to it are panicking in the Once and leaving. The pool is attempted at most once, panic or not. Until such a panic the process behaves exactly as C79-C84 say; an error of the pool, in contrast, is reported by the one call that built it, and other calls can return values.", "quantifier": "all numbers of threads, configurations, interleavings of calls with each other and with the rest of the program, all answers of the operating system and of the pool builder, and all moments of the panic", "why_tests_cant": "a test sees one interleaving, and once the Once is poisoned the test process cannot try another; that no call ever succeeds again is a statement about all continuations", "anchors": ["rust_ipv8/src/lib.rs: THREADPOOL_START, IPv8::new", "rust_ipv8/Cargo.toml: rayon"]}
{"id": "C140", "title": "Payload types that contain themselves: the stack it takes to read them", "statement": "A payload type may contain itself (or several each other) behind a Box. Packet::add and next_payload work for such types as for all others: a value that is encoded in a packet is read back exactly, and next_payload moves behind its bytes, if the stack has room for as many nested calls as the value is nested deep; with any less the process is aborted, in add as in next_payload. Stack size has no other influence: with more, every value and every error is the same. For a type that does not contain itself the depth of its declaration is enough for every packet of every length, and it is read as the types of the other claims are. For types that contain themselves only inside options, vectors and enums, reading always ends, and the stack needed is at most linear in the unread bytes. But it is linear: for a type like struct Chain { next: Option<Box<Chain>> } n bytes of 01 anywhere in a packet abort a process whose stack has room for 3n calls or fewer, so on every stack there is a packet that aborts the process. A type that contains itself with none of these in between cannot be read at all: every attempt aborts. The second pass of next_payload, which measures the value, never needs more stack than reading did.", "quantifier": "all (mutually recursive) families of payload types over the types of C05 and C74-C78, all values, packets, cursor positions and sizes of the stack", "why_tests_cant": "a test reads values of a few depths on one stack; the bound is about all packets, and its failure aborts the test process itself", "anchors": ["rust_ipv8/src/serialization/mod.rs: Packet::add, PacketDeserializer::next_payload", "rust_ipv8/src/configuration.rs: buffersize"]}
{"id": "C141", "title": "A started instance cannot be stopped, changed or taken over", "statement": "Once started, an instance listens on until its process ends, polling or receiving fails, or one of its receivers panics: whatever any thread of its program, other processes, the operating system and the network do, it stays on the same socket, at the same address, with the same buffer size, poll interval and receivers. There is no call that stops or changes it, on this or any other value: until it ends no receiver is added to it, its socket is not closed, not started again and not sent on, and nobody on the host binds an address that clashes with its. Its end is final: its socket is closed in the same step, no receiver is called by it afterwards, nothing is delivered to it any more, and it is not started again.", "quantifier": "all topologies, programs (threads, configurations, values), executions before and after the start, all answers of the operating system", "why_tests_cant": "that nothing among everything a program can do stops a listener is a statement about all continuations of all executions", "anchors": ["rust_ipv8/src/networking/mod.rs: NetworkReceiver::start, listen", "rust_ipv8/src/lib.rs: IPv8::start"]}
{"id": "C142", "title": "The parts used on their own", "statement": "A program may create receivers and senders with their own constructors, take an instance apart, put one together, and start a receiver itself. Whatever it does in whatever order: every receiver, sender and instance it holds has its own sockets, bound as was asked for; nothing leaks, also not from a call that failed; a listener runs with the configuration handed to the call that started it and calls exactly the receivers added before, with exactly the datagrams received, in order. No sequence of calls makes a later start, drop, take-apart or put-together impossible. An instance that is taken apart and whose receiver is started keeps a sender that works. But the worker pool belongs to whoever comes first: if a listener received a datagram before the program's first IPv8::new, that call fails whatever its configuration, so one datagram from a stranger decides it; otherwise the pool gets that first call's number of threads, for good, and no later call fails because of it.", "quantifier": "all topologies, all programs over these calls and all their executions, arrivals at any time, all configurations and answers of the operating system", "why_tests_cant": "who sets up the pool first is a race with the network, and ownership of sockets must hold after every sequence of calls", "anchors": ["rust_ipv8/src/networking/mod.rs: NetworkReceiver::new, start, add_receiver, NetworkSender::new, send", "rust_ipv8/src/lib.rs: IPv8 (public fields), IPv8::new, IPv8::start"]}
{"id": "C143", "title": "A deserializer after anything that was done with it: exactly when a call panics", "statement": "For payloads without authentication payloads inside, and both kinds of verification, with any keys and results: a call on a PacketDeserializer panics exactly if it looks at the packet while the cursor (index) is behind its end, or is a verify_with on fewer than 64 bytes, or a verify at a complete blob that is too short for what it claims to be. The cursor gets behind the end only through a verification that takes bytes for the signature that were read before; this is for good, no sequence of calls repairs it. A whole history that starts inside the packet contains a panic exactly if it contains a hopeless verification or one that cuts into what was read, followed by a call that looks at the packet. Setting the public field index to a position inside what is left makes reading safe again.", "quantifier": "all byte strings, cursors, histories of calls of any length (payload types, keys), all results of the signature checks", "why_tests_cant": "the condition is exact over all histories and packets; a test shows single panics", "anchors": ["rust_ipv8/src/serialization/mod.rs: PacketDeserializer::{next_payload, peek_header, pop_header, verify, verify_with, pntr, index}"]}
{"id": "C144", "title": "A program that only calls IPv8's methods is a program of parts", "statement": "Everything that is guaranteed to programs that make, take apart and put together the parts of an IPv8 (C142) is also guaranteed to programs that only call its methods: whatever a process does with IPv8::new, add_receiver, start, send and drop, next to anything other processes and the network do, a program of parts can do too, with the same effects on sockets one by one in the same order, the same calls of new, and in the end the same sockets, values, listeners, state of the one-time initialisation and thread pool.", "quantifier": "all executions: calls, environments that refuse with I/O errors, schedules of listeners and of the rest of the world, any length", "why_tests_cant": "it compares two models over all their executions; a mistake in either (a socket that is not closed, a wrong order, a missed case) breaks it", "anchors": ["rust_ipv8/src/lib.rs: IPv8, IPv8::new, IPv8::start", "rust_ipv8/src/networking/mod.rs: NetworkReceiver::new, add_receiver, start, NetworkSender::new, send"]}
