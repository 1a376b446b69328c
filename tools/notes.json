{
 "C04": {
  "note": "The form a user would expect is false of the code; the theorem(s) with suffix _refuted (or 'refuted' in the name) give the counterexample, the others prove the exact truth, which is the statement in properties.jsonl. Witness: 21-byte id, message type 261."
 },
 "C06": {
  "note": "Quantifies over the type universe of Universe.v (all library payloads, integers, bool, String, Option, Vec, and user structs and enums built from them, nested to any depth)."
 },
 "C08": {
  "note": "fits_memory: fewer than 2^64 bytes, which every Rust slice meets."
 },
 "C103": {
  "note": "The form a user would expect (accepted means signed by somebody) is false of the code; the theorems give the counterexample."
 },
 "C108": {
  "note": "The form a user would expect is false of the code; the theorem with suffix _refuted gives the counterexample for every key and content, the other one proves the exact truth."
 },
 "C11": {
  "note": "The form a user would expect is false of the code; the theorem(s) with suffix _refuted (or 'refuted' in the name) give the counterexample, the others prove the exact truth, which is the statement in properties.jsonl. "
 },
 "C117": {
  "note": "The form a user would expect is false of the code; the theorem gives the counterexample, for every size of the pool and every continuation."
 },
 "C118": {
  "note": "Fairness of the scheduler and of the pool, and that receivers come back, are hypotheses; the third theorem (in rayon's own order, for every pool of two threads or more) shows that the hypothesis on the number of instances is needed."
 },
 "C119": {
  "note": "RayonOrder.v treats a search through the deques as one step; see its header."
 },
 "C12": {
  "note": "The form a user would expect is false of the code; the theorem(s) with suffix _refuted (or 'refuted' in the name) give the counterexample, the others prove the exact truth, which is the statement in properties.jsonl. "
 },
 "C120": {
  "note": "The scheduling of the thread and that receivers come back are hypotheses of the second theorem."
 },
 "C23": {
  "note": "The form a user would expect is false of the code; the theorem(s) with suffix _refuted (or 'refuted' in the name) give the counterexample, the others prove the exact truth, which is the statement in properties.jsonl. Witness: 2 bytes."
 },
 "C25": {
  "note": "The form a user would expect is false of the code; the theorem(s) with suffix _refuted (or 'refuted' in the name) give the counterexample, the others prove the exact truth, which is the statement in properties.jsonl. "
 },
 "C28": {
  "note": "Under ed25519_laws (signature length 64), an explicit hypothesis with a concrete instance."
 },
 "C29": {
  "note": "Under ed25519_laws, which C100 proves of Ed25519 itself."
 },
 "C30": {
  "note": "accepts_iff and what an unsigned accepted packet means; what signatures the real scheme accepts is C101, C102, C108. C30_rfc8032: the same in the terms of RFC 8032."
 },
 "C31": {
  "note": "Under ed25519_laws, which C100 proves of Ed25519 itself (C100_signed_message_end_to_end is this theorem without them)."
 },
 "C34": {
  "note": "The form a user would expect is false of the code; the theorem(s) with suffix _refuted (or 'refuted' in the name) give the counterexample, the others prove the exact truth, which is the statement in properties.jsonl. "
 },
 "C35": {
  "note": "The form a user would expect is false of the code; the theorem(s) with suffix _refuted (or 'refuted' in the name) give the counterexample, the others prove the exact truth, which is the statement in properties.jsonl. "
 },
 "C37": {
  "note": "Under ed25519_laws. Also without any assumption on the scheme, for Ed25519 itself (Real)."
 },
 "C39": {
  "note": "Under ed25519_laws."
 },
 "C40": {
  "note": "The form a user would expect is false of the code; the theorem(s) with suffix _refuted (or 'refuted' in the name) give the counterexample, the others prove the exact truth, which is the statement in properties.jsonl. "
 },
 "C45": {
  "note": "The form a user would expect is false of the code; the theorem(s) with suffix _refuted (or 'refuted' in the name) give the counterexample, the others prove the exact truth, which is the statement in properties.jsonl. "
 },
 "C52": {
  "note": "The form a user would expect is false of the code; the theorem(s) with suffix _refuted (or 'refuted' in the name) give the counterexample, the others prove the exact truth, which is the statement in properties.jsonl. "
 },
 "C56": {
  "note": "The form a user would expect is false of the code; the theorem(s) with suffix _refuted (or 'refuted' in the name) give the counterexample, the others prove the exact truth, which is the statement in properties.jsonl. "
 },
 "C58": {
  "note": "Also without any assumption on the scheme, for Ed25519 itself (Real)."
 },
 "C60": {
  "note": "Relative to the modelled readiness (no spurious wake-ups by the operating system)."
 },
 "C69": {
  "note": "The form a user would expect is false of the code; the theorem(s) with suffix _refuted (or 'refuted' in the name) give the counterexample, the others prove the exact truth, which is the statement in properties.jsonl. "
 },
 "C70": {
  "note": "The receiver that forwards to the registry is the user's (EndToEndSpec.v): the crate has none (C56)."
 },
 "C71": {
  "note": "Under ed25519_laws. Composition of C31, C63, C70. Also without any assumption on the scheme, for Ed25519 itself (Real)."
 },
 "C72": {
  "note": "Unforgeability for the key is an explicit hypothesis of the theorem."
 },
 "C73": {
  "note": "The form a user would expect is false of the code; the theorem(s) with suffix _refuted (or 'refuted' in the name) give the counterexample, the others prove the exact truth, which is the statement in properties.jsonl. "
 },
 "C74": {
  "note": "serde's and bincode's impls for String/bool/Option/Vec/enum are modelled from their documented behaviour; the crate is not in /repo."
 },
 "C75": {
  "note": "serde's and bincode's impls for String/bool/Option/Vec/enum are modelled from their documented behaviour; the crate is not in /repo."
 },
 "C76": {
  "note": "C76_empty_elements_refuted is the exception named in the statement."
 },
 "C84": {
  "note": "Refuted: the theorem proves the negation, a concrete schedule."
 },
 "C87": {
  "note": "The form a user would expect is false of the code; the theorem(s) with suffix _refuted (or 'refuted' in the name) give the counterexample, the others prove the exact truth, which is the statement in properties.jsonl. "
 },
 "C88": {
  "note": "The form a user would expect is false of the code; the theorem(s) with suffix _refuted (or 'refuted' in the name) give the counterexample, the others prove the exact truth, which is the statement in properties.jsonl. C88: symmetric_routes excludes address translation."
 },
 "C92": {
  "note": "Under ed25519_laws, an explicit hypothesis with a concrete instance. Also without any assumption on the scheme, for Ed25519 itself (Real)."
 },
 "C93": {
  "note": "'No forgery was sent' is an explicit hypothesis about the execution, met by a concrete one."
 },
 "C98": {
  "note": "The form a user would expect is false of the code; the theorem(s) with suffix _refuted (or 'refuted' in the name) give the counterexample, the others prove the exact truth, which is the statement in properties.jsonl. K and V range over the universe's types; other impls are covered by C97."
 },
 "C122": {
  "note": "The form a user would expect is false of the code (theorem with refuted in the name). Structs with several fields are not covered."
 },
 "C124": {
  "note": "Fairness of scheduler and pool, that calls come back and that the network goes on delivering are hypotheses, met by a concrete infinite execution (ex_C124_hypotheses)."
 },
 "C125": {
  "note": "Steps and requested bytes as counted in Cost.v. The form a user would expect (all types) is false for vectors of possibly empty elements (C125_empty_elements_refuted)."
 },
 "C128": {
  "note": "Steps and requested bytes as counted in Cost.v and Writing.v; writes that fail are not counted. For vectors of empty elements the form a user would expect is false (C128_empty_elements_refuted)."
 },
 "C131": {
  "note": "The unrestricted form (receivers may do what they like) is false: C131_lock_during_join_refuted. The others prove the exact condition's sufficiency."
 },
 "C132": {
  "note": "pyo3 0.7 does not catch panics; in the model a panic ends the process."
 }
}