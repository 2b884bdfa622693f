{"id": "C01", "title": "Merkle tree behaves as a map from index to (key,value)", "statement": "After any sequence of Set calls on a fresh tree with 32-byte indices, Get(i) returns a proof whose leaf carries index i, the key's commitment and exactly the value of the last successful Set on i when there was one; otherwise it returns a leaf (empty, or another index's leaf with value and salt suppressed) whose index is not i, except that an empty leaf may carry i only in the documented deep-prefix corner case.", "quantifier": "all finite histories of Set calls (any indices of equal length, keys, values, salts), all lookup indices", "why_tests_cant": "The set of inputs is infinite (or astronomically large); a test samples finitely many. Tree shape depends on the whole insertion history.", "anchors": ["merkletree/merkletree.go:Get", "merkletree/merkletree.go:Set", "merkletree/merkletree.go:insertNode"]}
{"id": "C02", "title": "Set/Get never panic on equal-length indices", "statement": "On a tree built from a fresh tree by Sets with indices all n>0 bytes long, a further Set with an n-byte index and a Get with an n-byte index always return normally; the internal ErrInvalidTree panics and slice-bounds panics are unreachable.", "quantifier": "all reachable trees, all n-byte indices", "why_tests_cant": "The set of inputs is infinite (or astronomically large); a test samples finitely many.", "anchors": ["merkletree/merkletree.go:insertNode", "merkletree/merkletree.go:Get"]}
{"id": "C03", "title": "Tree and root hash are independent of insertion order", "statement": "Two histories of Sets with the same nonce that leave the same final leaf (commitment) at every index produce the same root hash, whatever their order and whatever overwritten values occurred in between.", "quantifier": "all pairs of Set histories with the same final map", "why_tests_cant": "Permutations of unbounded histories.", "anchors": ["merkletree/merkletree.go:insertNode", "merkletree/node.go:hash"]}
{"id": "C04", "title": "Proof completeness: every proof produced by Get verifies", "statement": "For a tree whose hashes have been recomputed, the authentication path returned by Get for any index verifies against the tree's root hash: with the stored key and value for an inserted index, and as a proof of absence otherwise.", "quantifier": "all reachable trees, all lookup indices", "why_tests_cant": "The set of inputs is infinite (or astronomically large); a test samples finitely many.", "anchors": ["merkletree/merkletree.go:Get", "merkletree/proof.go:Verify", "merkletree/proof.go:authPathHash"]}
{"id": "C05", "title": "Authentication paths are well-shaped", "statement": "Every path returned by Get has exactly Level sibling hashes of 32 bytes, Level between 1 and 8*len(index), the leaf index agreeing with the lookup index on its first Level bits.", "quantifier": "all reachable trees, all lookup indices", "why_tests_cant": "The set of inputs is infinite (or astronomically large); a test samples finitely many.", "anchors": ["merkletree/merkletree.go:Get", "merkletree/node.go:newInteriorNode"]}
{"id": "C06", "title": "Incremental hashing equals hashing from scratch", "statement": "At any point of any interleaving of Set and root-hash recomputation, the hash computed through the cached child hashes equals the hash of the tree computed with no cache: no stale cached hash is ever used.", "quantifier": "all interleavings of Set and recomputeHash", "why_tests_cant": "Cache invalidation bugs depend on the order of operations.", "anchors": ["merkletree/merkletree.go:insertNode", "merkletree/node.go:interiorNode.hash", "merkletree/merkletree.go:recomputeHash"]}
{"id": "C07", "title": "Clone is faithful and isolated", "statement": "A clone taken after the root hash was recomputed answers every Get identically and has the same root hash; later Sets on either tree never change the other.", "quantifier": "all reachable trees and all later operation sequences on either copy", "why_tests_cant": "Aliasing bugs depend on the heap shape.", "anchors": ["merkletree/merkletree.go:Clone", "merkletree/node.go:clone"]}
{"id": "C08", "title": "Clone of a tree with pending changes: same bindings, wrong hashes", "statement": "Whatever the state of the hash caches, a clone and the original treated with the same operations answer every Get with the same nonce, leaf and depth. But the hashes agree only if they were recomputed before Clone (C07): the clone of a fresh tree hashes to the digest of the empty string, and there are reachable trees whose clone recomputes to a different root hash than the original (Clone turns \"not computed\" into \"computed and empty\").", "quantifier": "all reachable trees, including ones with invalidated hashes", "why_tests_cant": "Needs the caches to be in a particular state.", "anchors": ["merkletree/merkletree.go:Clone", "merkletree/node.go:interiorNode.clone"]}
{"id": "C09", "title": "Root hash commits to the whole tree", "statement": "If two trees built with 32-byte nonces and indices have the same root hash, then they have the same nonce and the same index-to-commitment map, unless one can read off a Digest collision from the inputs hashed in the two trees.", "quantifier": "all pairs of reachable trees", "why_tests_cant": "The set of inputs is infinite (or astronomically large); a test samples finitely many.", "anchors": ["merkletree/node.go:hash"]}
{"id": "C10", "title": "reshuffle preserves all bindings", "statement": "Re-indexing the tree under the current VRF key keeps exactly the same set of key/value bindings, each retrievable under its new index (when new indices of distinct keys are distinct).", "quantifier": "all reachable PAD states", "why_tests_cant": "The set of inputs is infinite (or astronomically large); a test samples finitely many.", "anchors": ["merkletree/pad.go:reshuffle", "merkletree/merkletree.go:visitLeafNodes"]}
{"id": "C11", "title": "Inclusion proofs bind: one value per index and root", "statement": "If two proofs of inclusion for the same 32-byte lookup index verify against the same root hash for the same key with values v1 and v2, both with IsEmpty=false, equally long salts and 32-byte siblings, then v1=v2, unless the two proofs' own hash inputs exhibit a Digest collision. IsEmpty and the salt length are not checked by Verify: with IsEmpty=true, or with salts of different lengths, two different values verify against one root without any collision.", "quantifier": "all byte strings a malicious server can put into an AuthenticationPath", "why_tests_cant": "Adversarial inputs; no finite set of tests covers all forgeries.", "anchors": ["merkletree/proof.go:Verify", "merkletree/proof.go:ProofNode.hash", "crypto/util.go:Verify"]}
{"id": "C12", "title": "A root cannot prove both inclusion and absence of one index", "statement": "No two proofs that verify against the same root hash show inclusion and absence of the same lookup index, unless a Digest collision is exhibited, provided nonce (32 bytes), commitment and index lengths are as this code produces them and the inclusion proof has IsEmpty=false. The code does not check these lengths: without them both proofs exist for one root.", "quantifier": "all adversarial authentication paths", "why_tests_cant": "Adversarial inputs.", "anchors": ["merkletree/proof.go:Verify", "merkletree/proof.go:ProofType"]}
{"id": "C13", "title": "Soundness against the honest tree", "statement": "If a proof for a 32-byte index verifies against the root hash of a tree built by this code then, barring an exhibited Digest collision, it tells the truth: an inclusion proof (IsEmpty=false, 32-byte salt) gives the stored key/value (up to the boundary between key and value, which the commitment does not delimit), an absence proof of the usual lengths implies that the index was never set. The salt length is not checked: a longer salt makes a wrong value verify against an honest tree.", "quantifier": "all reachable trees, all adversarial proofs", "why_tests_cant": "Adversarial inputs.", "anchors": ["merkletree/proof.go:Verify", "merkletree/node.go:hash"]}
{"id": "C14", "title": "When Verify cannot crash", "statement": "Verify never panics on an authentication path whose leaf is present, whose level exceeds neither the number of siblings nor the bits of both indices, and whose commitment is present unless it is an absence proof of an empty branch; every path produced by this code is of this form. Other decodable paths (missing leaf, missing commitment, level larger than the number of siblings or bits) do crash Verify.", "quantifier": "all decodable authentication paths", "why_tests_cant": "Malformed inputs are unbounded.", "anchors": ["merkletree/proof.go:Verify", "merkletree/proof.go:authPathHash"]}
{"id": "C15", "title": "STR serialization is unambiguous", "statement": "Two signed tree roots with 32-byte hashes and equal-format associated data have the same signed byte string only if epoch, previous epoch (when epoch>0), tree hash, previous STR hash and associated data are all equal.", "quantifier": "all pairs of STRs", "why_tests_cant": "The set of inputs is infinite (or astronomically large); a test samples finitely many.", "anchors": ["merkletree/str.go:SerializeInternal", "protocol/str.go:Serialize", "protocol/policy.go:Serialize"]}
{"id": "C16", "title": "PAD history is a valid hash chain", "statement": "After any sequence of Set and Update, the STRs issued have epochs 0,1,2,..., each verifies under the PAD's public key over its own contents, each later one passes VerifyHashChain against its predecessor, and PreviousEpoch is the predecessor's epoch.", "quantifier": "all operation histories of a PAD", "why_tests_cant": "Unbounded histories.", "anchors": ["merkletree/pad.go:Update", "merkletree/pad.go:signTreeRoot", "merkletree/str.go:VerifyHashChain"]}
{"id": "C17", "title": "Fork consistency of the hash chain", "statement": "If two chains of STRs that each pass VerifyHashChain end in STRs with the same signature then they carry the same signatures at all common earlier epochs, and the same contents there, unless a Digest collision between two signatures, or one signature accepted for two different byte strings, is exhibited.", "quantifier": "all pairs of valid chains of any length", "why_tests_cant": "Adversarial unbounded chains.", "anchors": ["merkletree/str.go:VerifyHashChain"]}
{"id": "C18", "title": "Snapshots are immutable", "statement": "Once an epoch's STR has been issued, its contents and the answers of LookupInEpoch for that epoch never change while it stays cached, whatever Sets and Updates follow.", "quantifier": "all PAD histories, all epochs, all keys", "why_tests_cant": "Unbounded histories.", "anchors": ["merkletree/pad.go:LookupInEpoch", "merkletree/pad.go:Update", "merkletree/merkletree.go:Clone"]}
{"id": "C19", "title": "Sets become visible exactly at the next Update", "statement": "Lookups in the latest epoch do not see a Set until Update is called; the next Update's snapshot contains all of them, with the last value per key.", "quantifier": "all PAD histories and keys", "why_tests_cant": "Unbounded histories.", "anchors": ["merkletree/pad.go:Set", "merkletree/pad.go:Lookup", "merkletree/pad.go:Update"]}
{"id": "C20", "title": "PAD cache: contiguous suffix, bounded, newest always available", "statement": "The set of cached epochs is always a contiguous range ending in the latest epoch, its size never exceeds max(2, capacity), evicted epochs give not-found and never come back, and requests for future epochs return the latest STR.", "quantifier": "all PAD histories, all capacities", "why_tests_cant": "Unbounded histories and capacities.", "anchors": ["merkletree/pad.go:Update", "merkletree/pad.go:GetSTR"]}
{"id": "C21", "title": "Lookups in any cached epoch verify against that epoch's STR", "statement": "For every cached epoch and key, the path returned by LookupInEpoch verifies against that epoch's tree hash and its VRF proof verifies under the PAD's VRF public key, showing the value last set before the epoch's Update, or absence.", "quantifier": "all PAD histories, epochs and keys", "why_tests_cant": "Unbounded histories.", "anchors": ["merkletree/pad.go:LookupInEpoch", "merkletree/pad.go:computePrivateIndex", "crypto/vrf/vrf.go:Prove"]}
{"id": "C22", "title": "One registration per name; bindings never change", "statement": "A name for which Register has answered success can never be registered again with another key: every later Register answers name-existed and no operation of the directory changes the stored key.", "quantifier": "all request histories of a directory", "why_tests_cant": "Unbounded histories.", "anchors": ["protocol/directory/directory.go:Register"]}
{"id": "C23", "title": "Temporary bindings are fulfilled", "statement": "If Register returned a temporary binding at epoch e then after the next Update the name's lookup is an inclusion proof at the promised index with the promised value.", "quantifier": "all request histories", "why_tests_cant": "Unbounded histories.", "anchors": ["protocol/directory/directory.go:Register", "protocol/directory/directory.go:Update", "protocol/directory/directory.go:NewTB"]}
{"id": "C24", "title": "Directory response codes tell the truth", "statement": "Register, KeyLookup and KeyLookupInEpoch answer success / name-existed / not-found exactly according to whether the name was registered (and visible at that epoch or pending), and the proof attached is of the matching type.", "quantifier": "all request histories and requests", "why_tests_cant": "Unbounded histories.", "anchors": ["protocol/directory/directory.go:Register", "protocol/directory/directory.go:KeyLookup", "protocol/directory/directory.go:KeyLookupInEpoch"]}
{"id": "C25", "title": "Every well-typed client request gets a response; no request crashes the directory", "statement": "For every directory history and every decoded request the handler returns a response message and does not panic.", "quantifier": "all request histories and all decodable requests", "why_tests_cant": "Unbounded histories and inputs.", "anchors": ["protocol/directory/directory.go", "application/server/server.go:HandleRequests"]}
{"id": "C26", "title": "Lookup-in-epoch and monitoring answers carry complete consecutive STR chains", "statement": "A successful KeyLookupInEpoch answer carries all STRs from the requested epoch to the latest, a successful Monitor answer one proof and STR for each epoch in the requested range, consecutive, hash-chained and each proof verifying against its STR.", "quantifier": "all histories, names and ranges", "why_tests_cant": "Unbounded histories.", "anchors": ["protocol/directory/directory.go:KeyLookupInEpoch", "protocol/directory/directory.go:Monitor"]}
{"id": "C27", "title": "STR history answers are complete, malformed-message errors, or (for dropped epochs) a crash", "statement": "GetSTRHistory answers malformed-message for future or empty ranges, and for ranges whose first epoch is still held exactly the published STRs of the range up to the latest epoch; for a range that starts at a dropped epoch it panics, so every directory that has run for more epochs than its snapshot capacity crashes on a request for its whole history (a defect).", "quantifier": "all histories and ranges", "why_tests_cant": "Unbounded histories.", "anchors": ["protocol/directory/directory.go:GetSTRHistory"]}
{"id": "C28", "title": "Policy changes take effect at the second following epoch", "statement": "After SetPolicies, the STR issued by the next Update still carries the old deadline (although one would expect the new one) and the STRs from the second Update on carry the new one: the STR of epoch k carries the deadline that was in force when epoch k-1 was opened.", "quantifier": "all histories", "why_tests_cant": "Depends on the sequence of SetPolicies and Update calls.", "anchors": ["protocol/directory/directory.go:SetPolicies", "protocol/directory/directory.go:Update"]}
{"id": "C29", "title": "VRF/TB configuration is constant", "statement": "The VRF public key in every STR's policies is the directory's VRF public key; whether temporary bindings are issued never changes.", "quantifier": "all histories", "why_tests_cant": "Unbounded histories.", "anchors": ["protocol/directory/directory.go:New", "protocol/directory/directory.go:SetPolicies"]}
{"id": "C30", "title": "Honest end-to-end completeness", "statement": "Take a client that starts with the directory's first STR and registers keys and looks up names (with or without a key to compare) while other users register, the operator changes policies and epochs advance, at most one between two contacts. No call crashes; every answer passes HandleResponse, except that a key given by the user which differs from the one registered first for the name is reported as CheckBindingsDiffer; and after each contact the client holds the directory's current STR.", "quantifier": "all honest runs of directory and client", "why_tests_cant": "Unbounded interleavings.", "anchors": ["protocol/client/consistencychecks.go:HandleResponse", "protocol/directory/directory.go"]}
{"id": "C31", "title": "Client acceptance is sound", "statement": "If HandleResponse accepts a lookup or registration answer, then the STR is the verified one or its signed, hash-chained successor, the VRF proof verifies for the name under the STR's policy key, and the authentication path verifies against the STR's tree hash with the returned key.", "quantifier": "all client states and adversarial responses", "why_tests_cant": "Adversarial inputs.", "anchors": ["protocol/client/consistencychecks.go:HandleResponse", "protocol/client/consistencychecks.go:verifyAuthPath"]}
{"id": "C32", "title": "The client's verified STR only moves forward along one signed chain", "statement": "Whatever the server answers, the client's verified STR is only ever replaced by an STR with epoch one greater, signed by the pinned key, whose previous-STR hash is the digest of the replaced one's signature; a failed STR check leaves the state unchanged.", "quantifier": "all sequences of adversarial responses", "why_tests_cant": "Adversarial unbounded histories.", "anchors": ["protocol/client/consistencychecks.go:updateSTR", "protocol/auditor/auditor.go:AuditDirectory"]}
{"id": "C33", "title": "Two clients who accept conflicting values can prove equivocation", "statement": "If two clients sharing the same verified STR accept two different keys for the same name, then a Digest collision or two different VRF outputs for one name is exhibited.", "quantifier": "all pairs of clients and adversarial answers", "why_tests_cant": "Adversarial inputs.", "anchors": ["protocol/client/consistencychecks.go:HandleResponse", "merkletree/proof.go:Verify"]}
{"id": "C34", "title": "Key changes: enforced only for keys passed by the caller", "statement": "If the caller passes a key, an accepted answer shows that key (in the tree or in a promise) or that the name is absent, and a valid proof of another key is reported as CheckBindingsDiffer. But the client itself never remembers a key: after every history its stored binding for every name is nil, so with the lookup of the command-line client, which passes the stored binding, a changed key is accepted.", "quantifier": "all client histories", "why_tests_cant": "Depends on histories.", "anchors": ["protocol/client/consistencychecks.go:HandleResponse", "protocol/message.go:GetKey"]}
{"id": "C35", "title": "Broken promises: detected in proofs of inclusion only", "statement": "While the client holds a promise for a name, an accepted lookup with a proof of inclusion shows exactly the promised index and value and the promise is then dropped; a mismatch in an otherwise valid answer is reported as CheckBrokenPromise and the promise kept. But a promise can be broken unnoticed: answering \"not found\" in the next epoch and promising another key afterwards is accepted throughout.", "quantifier": "all client states with a pending promise, all adversarial answers", "why_tests_cant": "Adversarial inputs.", "anchors": ["protocol/client/consistencychecks.go:updateTBs", "protocol/client/consistencychecks.go:verifyFulfilledPromise"]}
{"id": "C36", "title": "Malformed responses: rejected when well shaped, some crash", "statement": "For registrations and lookups, HandleResponse returns normally (an error code or acceptance) for every response whose proof object, first path (of the form of C14) and first STR with tree root and policies are present. A null proof, a null path or one without leaf, a null STR or one without tree root crashes it, and so does every well-formed answer for the declared but unimplemented request types (lookup in a past epoch, monitoring).", "quantifier": "all decodable responses", "why_tests_cant": "Unbounded malformed inputs.", "anchors": ["protocol/client/consistencychecks.go:HandleResponse", "protocol/message.go:Validate"]}
{"id": "C37", "title": "Auditor accepts exactly the signed linear histories", "statement": "AuditDirectory accepts a list of STRs exactly when the first is the last verified STR or its signed hash-chained successor and every further one is signed by the directory's key and extends its predecessor (epoch plus one, previous epoch, digest of the previous signature). Audit changes its state only then, and then to the last STR. The history an honest directory returns from the verified epoch (or the next) on is accepted.", "quantifier": "all audit states and adversarial STR lists", "why_tests_cant": "Adversarial unbounded lists.", "anchors": ["protocol/auditor/auditor.go:AuditDirectory", "protocol/auditor/auditor.go:VerifySTRRange", "protocol/auditor/auditor.go:CheckSTRAgainstVerified"]}
{"id": "C38", "title": "Audit log serves exactly the observed history, append-only", "statement": "Provided saved snapshots given to InitHistory were themselves verified: GetObservedSTRs answers a range with exactly the STRs recorded for it, malformed-message for bad ranges and unknown-directory for unknown identities; each accepted audit appends exactly the received STRs (minus a repeated first), a rejected one changes nothing, and recorded STRs are never changed or dropped.", "quantifier": "all audit-log histories and ranges", "why_tests_cant": "Unbounded histories.", "anchors": ["protocol/auditlog/auditlog.go:GetObservedSTRs", "protocol/auditlog/auditlog.go:Audit"]}
{"id": "C39", "title": "Audit log contents are verified, except saved snapshots", "statement": "If every directory was initialised with its first STR only, every answer of GetObservedSTRs is a gap-free signed hash chain from the pinned STR. Snapshots after the first that are handed to InitHistory are however not verified: any STR given there, signed or not, is served afterwards, and skipped epochs are served as null.", "quantifier": "all audit-log histories, all initial snapshots", "why_tests_cant": "Adversarial initial histories.", "anchors": ["protocol/auditlog/auditlog.go:InitHistory", "protocol/auditlog/auditlog.go:Audit"]}
{"id": "C40", "title": "An auditor exposes equivocation", "statement": "CheckEquivocation accepts exactly when the log's answer is a signed hash chain that ends in the client's verified STR or a signed successor of it; in that case the log's STR for the client's epoch has the same signature as the client's, unless the two signatures collide under the hash. A truthful log is accepted. (A wrong kind of message or a null STR crashes client and auditor.)", "quantifier": "all clients and adversarial log answers", "why_tests_cant": "Adversarial inputs.", "anchors": ["protocol/client/consistencychecks.go:CheckEquivocation", "protocol/auditor/auditor.go:CheckSTRAgainstVerified"]}
{"id": "C41", "title": "Registration only over permitted addresses", "statement": "On an address configured without allow_registration no message whatever changes the directory, and a registration is answered with ErrMalformedMessage; on an address with it a well-formed registration gets exactly the directory's Register answer. Lookups and monitoring requests get the directory's answer on every configured address. Every other request type is refused on every address.", "quantifier": "all configurations with distinct address entries, all addresses, all messages (any JSON value or non-JSON), all directory states", "why_tests_cant": "Combination of configuration and inputs.", "anchors": ["application/server/server.go:NewConiksServer", "application/serverbase.go:checkRequestType"]}
{"id": "C42", "title": "Concurrent requests and epoch updates are atomic", "statement": "Under any interleaving of the single memory accesses of any number of connection handlers, epoch ticks and policy reloads, the answered requests can be ordered, consistently with real time, so that each got exactly the answer it gets when executed alone, starting from the server's initial directory; half-done registrations and updates (whatever states memory passes through) are never observed; hence every answer is one the directory gives after some sequential history of the requests invoked. No reachable state is deadlocked.", "quantifier": "all schedules of any number of handlers, ticks and reloads; all intermediate memory states of a tree being rebuilt", "why_tests_cant": "Schedules cannot be enumerated by tests.", "anchors": ["application/serverbase.go:acceptClient", "application/serverbase.go:EpochUpdate"]}
{"id": "C43", "title": "Wire encoding round trip, and where it fails", "statement": "Every request of the four kinds the server accepts with a UTF-8 name arrives as sent; every answer the directory gives after any history arrives at the client as sent, and decoding never crashes for request types with a decoder. A name arrives unchanged exactly when it is UTF-8: ill-formed bytes are replaced by U+FFFD, so different names can yield the same message. Auditing and STR-history requests arrive untyped; decoding a response for AuditType crashes; a response with an explicit null proof decodes into a value on which Validate crashes.", "quantifier": "all requests, names, keys, epochs, directory histories and response bytes (at the level of JSON values)", "why_tests_cant": "The set of inputs is infinite (or astronomically large); a test samples finitely many.", "anchors": ["application/encoding.go", "application/client/encoding.go"]}
{"id": "C44", "title": "The automatic epoch interval", "statement": "The time between the end of one automatic update and the start of the next is at least the interval fixed at start-up (exactly it when nothing delays), which is the top-level EpochDeadline of the configuration in seconds and is changed by no message, tick or reload. It is not the deadline announced in the STR: a server built from NewConfig has interval 0 whatever deadline its policies announce.", "quantifier": "all configurations, all run histories including reloads, all delays", "why_tests_cant": "Depends on configuration and history.", "anchors": ["application/server/server.go:Run", "application/serverbase.go:EpochUpdate", "application/server/server.go:updatePolicies"]}
{"id": "C45", "title": "The bot forwards only registrations for names of the authenticated account", "statement": "The registration bot passes a direct message on to the key server exactly when it is a registration request whose name equals the sender's screen name plus '@twitter' up to case folding; it then sends the bytes it received, unchanged and once, and returns the server's answer to the sender only; every other message gets a malformed-message answer or none and never reaches the server. No name belongs to two accounts, so all registrations the directory makes behind the bot were asked for by the account the name belongs to. But since the comparison ignores case and the directory does not, one account can register several names.", "quantifier": "all direct messages, in any number and order", "why_tests_cant": "The set of inputs is infinite (or astronomically large); a test samples finitely many.", "anchors": ["application/bots/twitterbot.go:HandleRegistration"]}
{"id": "C46", "title": "Bit and integer encodings", "statement": "ToBytes and ToBits are inverse (up to zero padding), GetNthBit(bs,i) is bit i of ToBits(bs), and the little-endian encodings are injective and of fixed length.", "quantifier": "all byte and bit strings, all integers", "why_tests_cant": "The set of inputs is infinite (or astronomically large); a test samples finitely many.", "anchors": ["utils/coname.go:ToBytes", "utils/coname.go:ToBits", "utils/utils.go:GetNthBit", "utils/utils.go:ULongToBytes"]}
{"id": "C47", "title": "Prefix ranges contain exactly the keys with the prefix", "statement": "A key lies in the range BytesPrefix(p) iff p is a prefix of it, including prefixes of 0xff bytes.", "quantifier": "all prefixes and keys", "why_tests_cant": "The set of inputs is infinite (or astronomically large); a test samples finitely many.", "anchors": ["storage/kv/range.go:BytesPrefix", "storage/kv/range.go:IncrementKey"]}
{"id": "C48", "title": "Commitments open to one value", "statement": "Commit.Verify accepts what was committed, and (with equal-length salts and the same key) a commitment value opens to only one value unless a Digest collision is exhibited.", "quantifier": "all keys, values, salts", "why_tests_cant": "Adversarial inputs.", "anchors": ["crypto/util.go:NewCommit", "crypto/util.go:Verify"]}
{"id": "C49", "title": "VRF completeness", "statement": "For every 32-byte seed and message: GenerateKey succeeds, Prove and Compute return (no panic) the same 32-byte value, the proof has 96 bytes, and Verify under the public key accepts it exactly when the message is not hashed to the neutral element of the group (in that case, and only then, the honest proof is rejected).", "quantifier": "all seeds, all messages, all hash functions in place of SHAKE256", "why_tests_cant": "The set of inputs is astronomically large; a wrong carry or a missed scalar range shows on a vanishing fraction of them.", "anchors": ["crypto/vrf/vrf.go:GenerateKey", "crypto/vrf/vrf.go:Prove", "crypto/vrf/vrf.go:Verify", "crypto/vrf/vrf.go:Compute", "crypto/vrf/vrf.go:expandSecret"]}
{"id": "C50", "title": "Scalar arithmetic modulo the group order is correct", "statement": "ScReduce(s) = s mod L and ScMulAdd(a,b,c) = a*b+c mod L with canonical results (0 <= r < L), ScNeg(s) = (L - s) mod 2^256 (which is L - s for s <= L), with no intermediate int64 overflow, for every 32/64-byte input.", "quantifier": "all 2^256 / 2^512 inputs", "why_tests_cant": "Carry-chain bugs appear for a vanishing fraction of inputs.", "anchors": ["crypto/internal/ed25519/edwards25519/edwards25519.go:ScReduce", "crypto/internal/ed25519/edwards25519/edwards25519.go:ScMulAdd", "crypto/internal/ed25519/edwards25519/edwards25519.go:ScNeg"]}
{"id": "C51", "title": "Field arithmetic modulo 2^255-19 is correct", "statement": "FeAdd, FeSub, FeNeg, FeCMove, FeMul, FeSquare, FeSquare2, FeFromBytes, FeToBytes, FeIsNegative and FeIsNonZero compute the field operations for all inputs in (at least) the documented limb bounds, results stay in the documented bounds, no int64/int32 overflow occurs, and FeToBytes is canonical: two elements have the same encoding iff they are equal in the field.", "quantifier": "all field elements within the documented limb bounds", "why_tests_cant": "Carry-chain bugs appear for a vanishing fraction of inputs.", "anchors": ["crypto/internal/ed25519/edwards25519/edwards25519.go:FeAdd", "crypto/internal/ed25519/edwards25519/edwards25519.go:FeSub", "crypto/internal/ed25519/edwards25519/edwards25519.go:FeNeg", "crypto/internal/ed25519/edwards25519/edwards25519.go:FeCMove", "crypto/internal/ed25519/edwards25519/edwards25519.go:FeMul", "crypto/internal/ed25519/edwards25519/edwards25519.go:FeSquare", "crypto/internal/ed25519/edwards25519/edwards25519.go:FeSquare2", "crypto/internal/ed25519/edwards25519/edwards25519.go:FeFromBytes", "crypto/internal/ed25519/edwards25519/edwards25519.go:FeToBytes", "crypto/internal/ed25519/edwards25519/edwards25519.go:FeIsNegative", "crypto/internal/ed25519/edwards25519/edwards25519.go:FeIsNonZero"]}
{"id": "C52", "title": "Inversion and exponentiation chains compute the right power", "statement": "FeInvert computes z^(p-2), fePow22523 and q58 compute z^((p-5)/8) and chi computes z^((p-1)/2), for every z in the limb bounds of FeMul, and the results are within those bounds again.", "quantifier": "all field elements", "why_tests_cant": "The set of inputs is infinite (or astronomically large); a test samples finitely many.", "anchors": ["crypto/internal/ed25519/edwards25519/edwards25519.go:FeInvert", "crypto/internal/ed25519/edwards25519/edwards25519.go:fePow22523", "crypto/internal/ed25519/extra25519/extra25519.go:q58", "crypto/internal/ed25519/extra25519/extra25519.go:chi"]}
{"id": "C53", "title": "Byte-string comparison in the Elligator code", "statement": "feBytesLE(a,b) returns 1 exactly when a<b (strictly) as little-endian numbers and 0 otherwise; the documented 'one if a <= b' is false, and false exactly on equal strings.", "quantifier": "all pairs of 32-byte strings", "why_tests_cant": "The set of inputs is infinite (or astronomically large); a test samples finitely many.", "anchors": ["crypto/internal/ed25519/extra25519/extra25519.go:feBytesLE"]}
{"id": "C54", "title": "Existing files are never overwritten", "statement": "If no other process touches the path and os.Stat answers truthfully, then at every crash or return point of WriteFile an existing path keeps its contents and the call, if it returned, reported an error; no other path changes; a new path is absent or holds a prefix of the data, and all of it when success was returned. The guarantee does not extend to a file created between the check and the open, nor to a failing os.Stat: there the file is overwritten and success is reported.", "quantifier": "all file-system states, paths, data and crash points", "why_tests_cant": "The set of inputs is infinite (or astronomically large); a test samples finitely many.", "anchors": ["utils/utils.go:WriteFile"]}
{"id": "C55", "title": "No message, tick or reload crashes the server", "statement": "In every run of the server, with any messages (any bytes) on any connections, any ticks and successful or failed reloads, in any interleaving, no handler panics, as long as there are fewer than 2^64-1 epochs.", "quantifier": "all runs and interleavings, all messages", "why_tests_cant": "unrecovered panics depend on the directory history, the eviction state and the interleaving; tests reach a few of them", "anchors": ["application/serverbase.go acceptClient", "application/server/server.go HandleRequests", "protocol/directory/directory.go"]}
{"id": "C56", "title": "The saved initial STR", "statement": "If the path was free, the STR an auditor loads from the file written at start-up is the server's epoch-0 STR and no other file changed. If the file exists it is kept and the failure is not reported: after a restart the file can hold an STR that is not the running server's.", "quantifier": "all configurations, file-store contents and start-up randomness", "why_tests_cant": "tests start a server once in a fresh directory; the round trip must hold for every STR and the restart case depends on earlier runs", "anchors": ["application/server/server.go NewConiksServer", "application/config.go SaveSTR LoadInitSTR", "utils/io.go WriteFile"]}
{"id": "C57", "title": "The command-line client reports what happened, but never the key", "statement": "The client prints 'registered', 'already registered', 'found' or 'not registered' exactly when the server's answer passes all consistency checks with the corresponding code, and it always prints something. In front of an honest server and without missed epochs the messages are exactly what happened to the names at the directory, whatever other users do. But the key printed after 'Found!' (and in the warning about a foreign key) is always empty.", "quantifier": "all server answers (any bytes), client states, command sequences and server histories", "why_tests_cant": "The answers come from an untrusted server; the histories are unbounded.", "anchors": ["cli/coniksclient/internal/cmd/run.go:register", "cli/coniksclient/internal/cmd/run.go:keyLookup", "protocol/message.go:GetKey"]}
{"id": "C58", "title": "Curve arithmetic is the group of edwards25519", "statement": "The point operations (add, subtract, double, mixed forms, conversions between the five representations) compute the complete twisted Edwards addition law on all inputs, including doublings, inverses and the neutral element; these points form a cyclic group of exactly 8L elements, L and p are prime, and the base point has order L.", "quantifier": "all pairs of points in all admissible limb representations", "why_tests_cant": "2^506 pairs of points and many limb representations each.", "anchors": ["crypto/internal/ed25519/edwards25519/edwards25519.go:GeAdd", "crypto/internal/ed25519/edwards25519/edwards25519.go:GeDouble", "crypto/internal/ed25519/edwards25519/edwards25519.go:geAdd", "crypto/internal/ed25519/edwards25519/edwards25519.go:geSub", "crypto/internal/ed25519/edwards25519/edwards25519.go:geMixedAdd", "crypto/internal/ed25519/edwards25519/edwards25519.go:geMixedSub", "crypto/internal/ed25519/edwards25519/edwards25519.go:ToExtended", "crypto/internal/ed25519/edwards25519/edwards25519.go:ToProjective", "crypto/internal/ed25519/edwards25519/edwards25519.go:ToCached"]}
{"id": "C59", "title": "Point encodings", "statement": "Every point has one 32-byte encoding, different points have different ones, and decoding an encoding gives the point back. Decoding succeeds exactly on strings whose low 255 bits are the second coordinate of a point. The key and proof decoder accepts exactly the canonical encodings of points of order L (so neither the neutral element, nor points of small or mixed order, nor non-canonical strings).", "quantifier": "all points and all 32-byte strings", "why_tests_cant": "All 2^256 strings.", "anchors": ["crypto/internal/ed25519/edwards25519/edwards25519.go:FromBytes", "crypto/internal/ed25519/edwards25519/edwards25519.go:FromParityAndY", "crypto/internal/ed25519/edwards25519/edwards25519.go:FromBytesBaseGroup", "crypto/internal/ed25519/edwards25519/edwards25519.go:ToBytes"]}
{"id": "C60", "title": "Scalar multiplication", "statement": "GeScalarMult(a, P) is a*P for every 32-byte a and every point P; GeScalarMultBase(a) is a*B for every a < 2^255; GeDoubleScalarMultVartime(a, P, b) is a*P + b*B for all a, b < 2^255 + 15 (and not for all 32-byte scalars); all 264 entries of the precomputed tables are the multiples they stand for.", "quantifier": "all scalars and points", "why_tests_cant": "All 2^256 scalars: the signed-digit recodings have rare carries.", "anchors": ["crypto/internal/ed25519/edwards25519/edwards25519.go:GeScalarMult", "crypto/internal/ed25519/edwards25519/edwards25519.go:GeScalarMultBase", "crypto/internal/ed25519/edwards25519/edwards25519.go:GeDoubleScalarMultVartime", "crypto/internal/ed25519/edwards25519/edwards25519.go:slide", "crypto/internal/ed25519/edwards25519/edwards25519.go:selectPoint", "crypto/internal/ed25519/edwards25519/const.go:base"]}
{"id": "C61", "title": "Hashing to the curve", "statement": "HashToEdwards maps every 32-byte string to a point of the curve, the one Elligator 2 prescribes, and never panics; the VRF's hash of a message is eight times such a point and so lies in the prime-order group.", "quantifier": "all 32-byte strings", "why_tests_cant": "The panic branch must be unreachable for all 2^256 strings.", "anchors": ["crypto/internal/ed25519/extra25519/extra25519.go:HashToEdwards", "crypto/internal/ed25519/extra25519/extra25519.go:representativeToMontgomeryX", "crypto/internal/ed25519/extra25519/extra25519.go:montgomeryXToEdwardsY", "crypto/vrf/vrf.go:hashToCurve"]}
{"id": "C62", "title": "What VRF verification accepts", "statement": "Verify never panics on any byte strings, and accepts exactly when the lengths are 32, 32 and 96, the public key and the proof's point are canonical encodings of points of order L, the value is the hash of that point and the message, and the proof's challenge equals the hash of the two commitments it determines.", "quantifier": "all public keys, messages, values and proofs (any lengths)", "why_tests_cant": "Adversarial inputs of every shape.", "anchors": ["crypto/vrf/vrf.go:Verify"]}
{"id": "C63", "title": "A VRF key proves one value per message", "statement": "For a public key x*B and a message hashed to H, a proof whose point is not x*H is accepted only if the hash of its commitments hits one number modulo L that is fixed before the hash is evaluated; a proof with the right point is accepted only for the value Compute returns. (The proof string itself is malleable: adding L to its second scalar keeps it valid.)", "quantifier": "all keys (also maliciously chosen), messages, proofs, commitments and hash functions", "why_tests_cant": "Quantifies over all adversarial proofs.", "anchors": ["crypto/vrf/vrf.go:Verify", "crypto/vrf/vrf.go:Compute"]}
{"id": "C64", "title": "The VRF code meets the laws the directory relies on", "statement": "Key generation, Prove and Verify, as coded, satisfy every law the theorems about trees, directories, clients and auditors assume of the VRF, for all keys and messages; and the proof an honest directory gives for a name is accepted exactly when the name is not hashed to the neutral element of the curve, which is the condition the theorems about honest directories put on names.", "quantifier": "all keys and messages", "why_tests_cant": "The laws quantify over all keys and messages.", "anchors": ["crypto/vrf/vrf.go:Prove", "crypto/vrf/vrf.go:Verify", "crypto/vrf/vrf.go:GenerateKey", "merkletree/pad.go:computePrivateIndex"]}
{"id": "C65", "title": "Messages keep their meaning as bytes on the connection", "statement": "The bytes a client or server writes for a message decode to that message: every JSON value with valid UTF-8 strings is read back from its text, so no two messages share a text; a request of at most 8192 bytes is the request the server works on; a longer one is refused with ErrMalformedMessage and changes nothing; reading only the first 8192 bytes never makes the server work on a request other than the one sent; an answer is either read as it was sent or recognised as malformed. Bytes beyond the first 8192 are ignored.", "quantifier": "all JSON values with UTF-8 strings, all byte strings a client may send, all names and keys, all directories reachable by registrations, updates and policy changes, all requests of the supported types", "why_tests_cant": "The messages range over unbounded byte strings, numbers and nesting; a test samples a few texts, and a cut in the middle of a number or string goes wrong only for particular lengths.", "anchors": ["/repo/application/encoding.go: MarshalRequest, UnmarshalRequest, MarshalResponse, UnmarshalResponse, malformedClientMsg", "/repo/application/serverbase.go: acceptClient", "/repo/application/testutil/testutil.go: NewTCPClient, NewUnixClient", "/repo/application/client/encoding.go: CreateRegistrationMsg, CreateKeyLookupMsg"]}
{"id": "C66", "title": "What the 8192-byte message limit allows and what it breaks", "statement": "Answers to registrations and lookups are read completely as long as 130 bytes per hash on the path and 3 bytes per key byte add up to at most 6900, and requests with plain names fit when 3 bytes per name byte and 4 per key byte add up to at most 24300. Keys of 6144 bytes or more cannot be registered over the network. The (documented) expectation that the answers to every request can be read by the client is refuted: a lookup in an epoch at least 24 epochs before the current one, and monitoring of 17 epochs or more, always produce an answer the client reports as malformed.", "quantifier": "all directories reachable by registrations, updates and policy changes, all names, keys, epochs and path lengths", "why_tests_cant": "The limit is met only by long histories, deep paths or large keys; the tests use a single epoch and short keys.", "anchors": ["/repo/application/serverbase.go: acceptClient", "/repo/application/testutil/testutil.go: NewTCPClient, NewUnixClient", "/repo/protocol/directory/directory.go: KeyLookupInEpoch, Monitor, Register, KeyLookup", "/repo/application/encoding.go: MarshalResponse"]}
{"id": "C67", "title": "Shutdown is graceful", "statement": "When Shutdown returns, every connection that was ever accepted has been answered and closed, every listening socket is closed, and the epoch and reload loops have ended; nothing is handled afterwards. After Shutdown is called each address accepts at most one more connection. A server with one address never crashes in the process; with two or more addresses it can (the shared WaitGroup is added to while another listener waits on it), and calling Shutdown twice always crashes.", "quantifier": "all numbers of addresses, all clients and all schedules of the goroutines", "why_tests_cant": "Whether a handler outlives Shutdown, or an Add meets a Wait, depends on the interleaving; the tests run one schedule.", "anchors": ["application/serverbase.go:ListenAndHandle", "application/serverbase.go:acceptRequests", "application/serverbase.go:acceptClient", "application/serverbase.go:RunInBackground", "application/serverbase.go:Shutdown", "application/server/server.go:Run"]}
{"id": "C68", "title": "Shutdown comes to an end", "statement": "From every state in which Shutdown has been called, whatever the clients do and however the goroutines are scheduled, Shutdown returns (with one address) or returns or crashes (with more), as long as epoch ticks and reload signals stop arriving; there is no deadlock between the lock, the wait groups and the listeners. Without that condition Shutdown can be delayed forever, because select may keep choosing the timer.", "quantifier": "all reachable states after the call of Shutdown and all continuations", "why_tests_cant": "Termination under every schedule.", "anchors": ["application/serverbase.go:Shutdown", "application/serverbase.go:acceptRequests", "application/serverbase.go:EpochUpdate", "application/serverbase.go:HotReload"]}
{"id": "C69", "title": "init never loses files and makes matching keys", "statement": "Running \"coniksserver init\" any number of times, in any folders, with any of the runs failing or being killed at any point, leaves every file that existed as it was and creates nothing but config.toml, the two key pairs and (with -c) the two TLS files. With -c, however, existing TLS files are replaced. In a folder that had no public key file, a public key file is (a beginning of) the public key of the complete private key beside it; an old public key beside a missing private key is kept and then does not match. An undisturbed init yields a configuration that loads, from any working directory, with the generated keys and the documented defaults; an init killed while it writes a private key leaves a folder that no later init repairs.", "quantifier": "all disks, all sequences of init runs with all failures and interruptions, all working directories and spellings of paths", "why_tests_cant": "Crash points, failures and histories of runs on arbitrary disks cannot be enumerated.", "anchors": ["cli/coniksserver/internal/cmd/init.go:initRunFunc", "cli/coniksserver/internal/cmd/init.go:mkConfig", "cli/coniksserver/internal/cmd/init.go:mkSigningKey", "cli/coniksserver/internal/cmd/init.go:mkVrfKey", "utils/utils.go:WriteFile", "application/testutil/testutil.go:CreateTLSCert", "application/config_encoding.go:Encode"]}
{"id": "C70", "title": "Loading and reloading a configuration", "statement": "A server configuration loads exactly when the file parses, has its policies, logger and address parts, and both key files, found relative to the directory of the configuration file, hold 64 bytes; the keys used are those. Its meaning does not depend on the working directory or on how its path is spelled. A reload changes the announced epoch deadline and nothing else. Missing sections are not reported as errors: loading panics, exactly when the policies are missing or (the keys being fine) the logger or part of an address is, and a reload then kills the running server; leaving out the log file makes the server panic at the start.", "quantifier": "all disks, configuration files, working directories, and states of the running server", "why_tests_cant": "Ranges over all files, paths and server states.", "anchors": ["application/server/config.go:Load", "application/config.go:NewCommonConfig", "application/config_encoding.go:Decode", "application/logger.go:NewLogger", "application/server/server.go:updatePolicies", "utils/utils.go:ResolvePath"]}
{"id": "C71", "title": "From init to a working client", "statement": "A server started from a configuration made by init serves with the generated keys exactly when its TLS files are there and its sockets are free, and saves its initial STR beside the configuration if it runs where init was run; a client whose configuration refers to its sign.pub and init.str then loads exactly the server's key and STR and every honest history of requests runs as expected. Started without TLS files the server crashes after saving the STR, and the next start serves another directory than the saved STR belongs to; started elsewhere than init was run with a relative folder, it saves no STR and reloads nothing.", "quantifier": "all disks, folders, working directories, keys, random choices and request histories", "why_tests_cant": "Composes set-up, start and all later histories; the failing workflows depend on earlier runs.", "anchors": ["cli/coniksserver/internal/cmd/run.go:run", "application/server/server.go:NewConiksServer", "application/server/server.go:Run", "application/serverbase.go:resolveAndListen", "application/config.go:SaveSTR", "application/config.go:LoadInitSTR", "application/config.go:LoadSigningPubKey", "application/client/config.go:Load"]}
{"id": "C72", "title": "The client's default configuration", "statement": "The configuration made by \"coniksclient init\" refers to a signing key and an initial STR of the same server folder exactly when the client's folder lies in one called \"keyserver\"; there it loads the key and STR of the server in the sibling folder coniksserver. With sibling folders elsewhere (as in cli/ of the repository) it cannot be loaded.", "quantifier": "all folders and disks", "why_tests_cant": "Ranges over all locations of the client folder.", "anchors": ["cli/coniksclient/internal/cmd/init.go:mkConfigOrExit", "application/client/config.go:Load", "utils/utils.go:ResolvePath"]}
{"id": "C73", "title": "The pid file", "statement": "\"run --pid\" leaves the process number in coniks.pid, and touches nothing else, exactly when the file was missing or no longer than the new number; otherwise digits of the earlier number remain after it.", "quantifier": "all process numbers and earlier contents", "why_tests_cant": "Depends on what earlier runs left behind.", "anchors": ["cli/coniksserver/internal/cmd/run.go:writePID"]}
{"id": "C74", "title": "Converting Ed25519 keys to Curve25519 keys", "statement": "Converting a public key succeeds exactly for the 32-byte strings whose low 255 bits are, modulo p, the second coordinate of a point of the curve, and yields the coordinate (1+y)/(1-y) of that point (0 for y = 1); the sign is lost: two points give the same key exactly if they are equal or opposite, or both among the two points with y = 1 and y = -1. For every Ed25519 key pair the two conversions agree: the converted public key is the public key of the converted private key, and the one key generation returns for it.", "quantifier": "all 32-byte strings, all seeds and all 64-byte hash functions", "why_tests_cant": "Ranges over 2^256 strings and over all points; the square root and inversion have exceptional inputs no random test meets.", "anchors": ["crypto/internal/ed25519/extra25519/extra25519.go:PrivateKeyToCurve25519", "crypto/internal/ed25519/extra25519/extra25519.go:PublicKeyToCurve25519", "crypto/internal/ed25519/extra25519/extra25519.go:edwardsToMontgomeryX"]}
{"id": "C75", "title": "Keys with Elligator representatives", "statement": "For every 32-byte secret, key generation returns a public key and a representative exactly if some 32 bytes decode to the public key of the secret (exactly if u(u+A) is not a square); the public key is the coordinate of n B for the clamped secret n, the representative decodes to it, and which of the possible representatives it is depends on the second coordinate v as v < (p-1)/2. The representative is a number below p, so unlike a random string it never has its top bit set. The two constants are square roots of -i/2 and -(A+2), not of -1/2 and -A as their comments say.", "quantifier": "all 32-byte secrets and all 32-byte strings", "why_tests_cant": "That no string decodes to a rejected key ranges over all strings; the branches depend on quadratic characters.", "anchors": ["crypto/internal/ed25519/extra25519/extra25519.go:ScalarBaseMult", "crypto/internal/ed25519/extra25519/extra25519.go:RepresentativeToPublicKey", "crypto/internal/ed25519/extra25519/extra25519.go:sqrtMinusA", "crypto/internal/ed25519/extra25519/extra25519.go:sqrtMinusHalf", "crypto/internal/ed25519/extra25519/extra25519.go:halfQMinus1Bytes", "crypto/internal/ed25519/extra25519/extra25519.go:feBytesLE", "crypto/internal/ed25519/extra25519/extra25519.go:q58"]}
{"id": "C76", "title": "Collisions of the hash to the curve", "statement": "Two 32-byte hashes are mapped to the same point of the curve exactly if their low 255 bits r and r' satisfy r' = r, r' = -r, 2rr' = 1 or 2rr' = -1 modulo p, and their top bits agree or the point has first coordinate 0: the map is four-to-one, no more.", "quantifier": "all pairs of 32-byte hashes", "why_tests_cant": "An equivalence over all pairs of strings.", "anchors": ["crypto/internal/ed25519/extra25519/extra25519.go:HashToEdwards", "crypto/internal/ed25519/extra25519/extra25519.go:representativeToMontgomeryX", "crypto/internal/ed25519/extra25519/extra25519.go:montgomeryXToEdwardsY", "crypto/vrf/vrf.go:hashToCurve"]}
{"id": "C77", "title": "VRF secrets come from the seed, and are not reused across names", "statement": "The VRF key pair is a function of the 32 random bytes alone: the secret scalar is the clamped first half of the expanded seed. Every honest proof hides the secret with a number that is a hash of the secret second half of the expanded seed, the public key and the message, so proofs for two different usernames never use the same number unless the hash function collides on two inputs that can be written down. That matters: any two proofs that do share the commitment and have different challenges reveal the secret (and so the VRF values of all usernames) to anyone who sees them.", "quantifier": "all seeds, all pairs of messages, all hash functions with the right output length, all pairs of proofs sharing a commitment", "why_tests_cant": "a test sees that a few proofs verify; a nonce that ignores the message, reads the public half, or repeats on some pair of names verifies just as well and leaks the key", "anchors": ["crypto/vrf/vrf.go: GenerateKey, expandSecret, Prove, Compute"]}
{"id": "C78", "title": "Snapshots held by reference never change", "statement": "The dictionary shares memory: Set changes the working tree in place, Update rehashes it in place, clones it, and overwrites the list of cached epochs in place. Nevertheless every call returns what it would return if all data were copied; no sequence of calls panics; and a signed tree root obtained once through GetSTR or LatestSTR keeps its contents and answers every lookup with the tree of its own epoch, however many Sets, Updates and evictions follow, also after it was evicted from the cache.", "quantifier": "all histories of Set and Update calls, all later histories, all cache sizes, all epochs and keys, every pointer handed out", "why_tests_cant": "aliasing bugs show only for particular interleavings of in-place changes with references held from earlier epochs", "anchors": ["merkletree/pad.go: NewPAD, signTreeRoot, updateInternal, Update, Set, GetSTR, LookupInEpoch", "merkletree/str.go: NewSTR", "merkletree/merkletree.go: recomputeHash, Clone", "merkletree/node.go: clone, hash"]}
{"id": "C79", "title": "The proxy meets the server, and only owners register", "statement": "coniksbot init never overwrites a file; its configuration loads from anywhere; the proxy starts exactly when its configuration parses, something exists at the socket path and the authenticated account has the configured handle. A server address \"unix://p\" and a proxy address \"p\" mean the same socket exactly when p is absolute and free of #, ?, % and control characters; the default configurations of coniksserver and coniksbot meet, on the only address that accepts registrations. A direct message with the client's registration text from the owner of a name has exactly the effect of Register for that name and key, and the owner receives the answer. If the registration addresses are left to the proxy, every key any lookup ever delivers was asked for in a direct message by the account the name belongs to, whatever else happens to the deployment. Percent escapes in addresses stand for any byte in digits of either case; socket names of 1 to 107 bytes not starting with '@' are files, relative ones in the working directory; the permissions that apply at a socket are those of the configured address it came from.", "quantifier": "all folders, working directories and spellings of paths, all socket paths, all accounts and direct messages, all interleavings of messages at all addresses, direct messages, epoch ticks and reloads", "why_tests_cant": "the two configurations are read by different code with different path rules, and the authentication claim ranges over whole histories of a deployment", "anchors": ["application/bots/config.go: NewTwitterConfig, Load, Save", "application/bots/twitterbot.go: NewTwitterBot, Run, HandleRegistration", "application/bots/bot.go: SendRequestToCONIKS", "cli/coniksbot/internal/cmd/init.go: mkBotConfig", "cli/coniksbot/internal/cmd/run.go: run", "application/serverbase.go: resolveAndListen", "cli/coniksserver/internal/cmd/init.go: mkConfig"]}
{"id": "C80", "title": "The mailbox of the proxy", "statement": "At start the proxy destroys only messages of its own mailbox; if Twitter co-operates all of them, 200 at a time, and then starts; it starts only with an empty mailbox or after a failed listing. While running it orders the destruction, five minutes after it is done with it, of every message it did not write itself, and of its reply to each request, and of nothing else. Requests are handled one after the other, so the n-th is not answered before 5n seconds. (Not guaranteed, and refuted: that old mail is really gone when the log says so, that the proxy starts when one message cannot be destroyed, that a reply is ever destroyed when the proxy is stopped within five minutes of it.)", "quantifier": "all mailboxes, all sequences of failing and succeeding Twitter calls and arriving messages, all streams of messages, all times of stopping", "why_tests_cant": "the loop depends on an unbounded sequence of remote failures and arrivals", "anchors": ["application/bots/twitterbot.go: NewTwitterBot, Run, sendDM, deleteOldDMs, deleteRequestDMs"]}
{"id": "C81", "title": "Answers disclose nothing about bindings not asked for, except indices and commitments", "statement": "Every answer of the directory (lookups, lookups in past epochs, monitoring, registrations, STR histories) about a set of names is determined by the bindings of those names and, for all other registrations, by their VRF indices and the published commitment digests: in two histories that agree on these but use other names, keys and salts for the rest, the observer gets the same bytes at every point. A leaf of another user shown in a proof of absence carries neither the value nor the salt. (Disclosed, and refuted to be hidden: that somebody is registered near the asked name.)", "quantifier": "all pairs of histories, all sets of asked names, all queries at all points of the histories, all hash functions and signature schemes", "why_tests_cant": "a relation between two unbounded runs (non-interference); a test compares a few answers of one run", "anchors": ["merkletree/merkletree.go: Get", "merkletree/pad.go: LookupInEpoch, Set, Update", "protocol/directory/directory.go: Register, KeyLookup, KeyLookupInEpoch, Monitor, GetSTRHistory"]}
{"id": "C82", "title": "Every request is answered and every epoch update takes place, under any load", "statement": "Once a message, epoch timer tick or reload has arrived at the key server it is answered or carried out. When nothing new arrives, any scheduler answers everything after finitely many steps, and the server comes to rest nowhere else than with everything answered. When operations keep arriving for ever, under the reader/writer lock of the Go library and a fair scheduler, each of them is still answered; in particular an epoch update that waits is not starved by lookups, and it is one of the updates in the sequential history that explains the run.", "quantifier": "all runs of the server, all interleavings of single memory accesses, all (also infinite) arrival sequences of messages, ticks and reloads, all fair schedules; fewer than 2^64-1 epochs", "why_tests_cant": "liveness: a statement about all infinite fair schedules; no finite test run can refute or confirm starvation", "anchors": ["application/server/server.go: EpochUpdate, Run", "application/serverbase.go: ListenAndHandle, acceptClient, EpochUpdate, HotReload"]}
{"id": "C83", "title": "Users who check with the same audit log agree on every key", "statement": "Two users who start from the same pinned initial STR and directory key, stop when a check fails, and each pass a CheckEquivocation against the same honest audit log (at times of their choosing) agree about every name at every epoch for which both accepted an answer: the same key, or both absence. Otherwise what they and the log hold contains evidence against the server: a hash collision, one signature under two byte strings, or two VRF outputs for one name. This holds when the two checks are made at the same epoch, and in general if the tree hashes in the STRs recorded by the log have the length of a hash. Nothing in the code checks that length, and without it the property fails: a server can fork the directory, show the users different keys and merge the forks again, so that both pass their checks with the same log.", "quantifier": "all answers of an arbitrary server to both users, all inputs to the log, all numbers of interactions and epochs, all times of the checks, all names and keys; fewer than 2^64-2 epochs", "why_tests_cant": "ranges over all behaviours of a malicious server; the attack needs STR bytes cut in two different ways, which no test of honest components produces", "anchors": ["protocol/client/consistencychecks.go: HandleResponse, CheckEquivocation", "protocol/auditlog/auditlog.go: Audit, GetObservedSTRs", "protocol/auditor/auditor.go: AuditDirectory, CheckSTRAgainstVerified, VerifySTRRange", "merkletree/str.go: SerializeInternal", "merkletree/proof.go: Verify"]}
{"id": "C84", "title": "What the client program shows on the screen is true, and always something", "statement": "In the interactive client, whatever the user types and whatever bytes the network delivers: only the lines \"register NAME KEY\" and \"lookup NAME\" (words separated by any Unicode blanks) send anything, exactly one request, which the server reads as that request; no other line touches what the client has verified. The screen announces a registration, an existing registration, a found binding or an absence exactly if the bytes received for that line carry an answer that passes all checks and says so; the texts of different outcomes never coincide. Every line except the two that switch time stamps is answered by exactly one non-empty line, and errors are named. With an honest server and messages of at most 8192 bytes, the screen of a session of any length shows exactly what happened to the names. A server address that is a URL of an unknown scheme is reported; one that is no URL at all (127.0.0.1:3000) is not: the client crashes at the first command. Words are separated by exactly the characters with the Unicode property White_Space; the texts for the codes are pairwise different; exactly the lines whose first word is exit or q end the session.", "quantifier": "all lines typed (any bytes), all replies of the network, all session lengths and histories at the server, all configurations", "why_tests_cant": "ranges over all typed lines, all byte strings a server may send and all interleavings with other users", "anchors": ["cli/coniksclient/internal/cmd/run.go: run, register, keyLookup", "cli/coniksclient/internal/cmd/common.go: writeLineInRawMode", "protocol/error.go: errorMessages, Error", "application/client/encoding.go: CreateRegistrationMsg, CreateKeyLookupMsg"]}
{"id": "C85", "title": "The key-value store is durable, atomic and linearizable", "statement": "Whatever calls are made concurrently on a store opened with leveldbkv, however they fail and whenever the process or the machine goes down, everything seen can be explained by each Put, Delete or Write taking effect as a whole at one moment between its call and its return (or not at all, if it did not return nil). After one of them has returned nil, and as long as no other call writing the key is in progress or made, Get on a key it wrote gives what it wrote, also after any number of crashes and restarts; otherwise unwritten or deleted keys give ErrNotFound. A batch is written as its puts and deletes since the last Reset, in order; writing a batch of another type fails and changes nothing. An iterator runs over exactly the entries in its range at the moment it was made, in ascending key order (with BytesPrefix: the keys with that prefix).", "quantifier": "all executions: any number of calls in progress, all interleavings, failures and crash points, all keys, values, batches and ranges", "why_tests_cant": "ranges over all crash points and interleavings; a missing Sync shows up only when power fails at the wrong moment", "anchors": ["storage/kv/kv.go: DB, Batch, Iterator", "storage/kv/leveldbkv/leveldbkv.go: Get, Put, Delete, NewBatch, Write, NewIterator", "storage/kv/range.go: BytesPrefix"]}
{"id": "C86", "title": "From the files of an installation to the lines on the screen", "statement": "A server started from its configuration file writes its first signed tree root where the configuration says and takes registrations exactly on the addresses marked for them. A client whose configuration refers to that server's public signing key and to that file, and whose addresses reach the server (the one for registrations one that takes them), loads its configuration and starts; then, whatever commands the user types and whatever the server's other users do, the screen shows for every command exactly what happened to the name (registered, already registered, found, not registered), with a time stamp iff started with -d, as long as no epoch is missed and messages fit. With the addresses that both init commands write, every registration is refused instead and nothing changes.", "quantifier": "all configurations, disks, working directories, keys, randomness, sessions of commands with arbitrary other requests, ticks and reloads in between", "why_tests_cant": "the chain runs through two programs, their configuration files, paths, keys, address tables and wire format; tests wire the pieces together in memory and with fixed paths", "anchors": ["cli/coniksserver/internal/cmd/init.go: mkConfig", "cli/coniksserver/internal/cmd/run.go: run", "application/server/server.go: NewConiksServer, HandleRequests", "cli/coniksclient/internal/cmd/init.go: mkConfigOrExit", "cli/coniksclient/internal/cmd/run.go: run, register, keyLookup", "application/client/config.go: Load"]}
{"id": "C87", "title": "Root hash and authentication paths are those of CONIKS's Merkle prefix tree", "statement": "However the entries got there (any history of insertions, overwrites, failed insertions and recomputations), the root hash equals the hash of the Merkle prefix tree over what is stored: a function of the tree nonce and the set of (index, commitment) pairs alone, in which a position with no entry below it hashes as an empty branch, one with a single entry as a leaf at that depth, any other as the hash of its two children, and the root always as the latter. A lookup ends at the first position of the index's path, below the root, with at most one entry below it; its answer names that position, what is there, and exactly the hashes beside the path. Every signed tree root of every epoch carries the root over the keys put before that epoch, under their private indices, with one nonce for ever.", "quantifier": "all index lengths, histories of operations with arbitrary randomness, all epochs, all looked-up indices, all hash functions with 32-byte output", "why_tests_cant": "the definition over the set of entries has to be compared with the result of insertion, splitting, caching and recomputation for all sets and all insertion orders; the test suite compares one or two roots built by the same code", "anchors": ["merkletree/merkletree.go: NewMerkleTree, Get, Set, insertNode, recomputeHash", "merkletree/node.go: hash, serialize", "utils/binary.go: ToBytes, ToBits", "merkletree/pad.go: Update, signTreeRoot"]}
{"id": "C88", "title": "With the VRF as coded, conflicting accepted answers hand over a hash failure", "statement": "With the VRF of this repository (only SHAKE256 and the signature scheme abstract): whatever proof Verify accepts for a public key and a name, the value is the single one the key determines (for a generated key, what Compute returns), or the hash function returned the one challenge out of more than 2^252 that a proof with a wrong point could answer. Hence two clients that hold the same STR and accepted different keys for a name, or a key and its absence, and two users who passed checks against the same audit log and disagree, hold a hash collision, one signature under two byte strings, or such a lucky proof. Without a condition on the hash functions this is false.", "quantifier": "all public keys (also maliciously chosen), names, values and proof strings; all answers of an arbitrary server, all logs, epochs and interactions; all hash functions with the right output lengths", "why_tests_cant": "Quantifies over adversarial keys and proofs, over hash functions and over unbounded histories.", "anchors": ["crypto/vrf/vrf.go:Verify", "crypto/vrf/vrf.go:Compute", "protocol/client/consistencychecks.go:HandleResponse", "protocol/auditor/auditor.go"]}
{"id": "C89", "title": "Branches and memory accesses of the VRF do not depend on the private key", "statement": "What an observer of the program counter and of addresses sees while Prove, Compute or GenerateKey runs (every branch taken, every array element read, every operation called, the length of everything hashed, in order) is the same for all private keys and seeds: the fixed- and variable-base scalar multiplications look at every table entry whatever the digit is, and the field and scalar arithmetic is straight-line code. This is not so for the double scalar multiplication (which the code uses for public values only, in Verify), and the observation is not independent of the name: hashing a name to the curve branches on a sign bit.", "quantifier": "all pairs of private keys of 64 bytes (seeds of 32 bytes), all messages and all hash functions; all scalars and points for the multiplications", "why_tests_cant": "It compares the executions of every pair of secrets; timing measurements see noise and only finitely many keys.", "anchors": ["crypto/vrf/vrf.go:Prove", "crypto/vrf/vrf.go:Compute", "crypto/vrf/vrf.go:GenerateKey", "crypto/internal/ed25519/edwards25519/edwards25519.go:GeScalarMultBase", "crypto/internal/ed25519/edwards25519/edwards25519.go:selectPoint", "crypto/internal/ed25519/extra25519/extra25519.go:HashToEdwards"]}
{"id": "C90", "title": "Signatures: completeness, exact acceptance, and what one signature pins down", "statement": "sign.Verify accepts exactly the pairs (R, s) that satisfy the Ed25519 equation for the point the key bytes denote; what PrivateKey.Sign returns for a key from GenerateKey has 64 bytes, is accepted under its Public key, and is the signature RFC 8032 prescribes: the nonce is a hash of a secret half of the expanded seed and the message, so that two messages share a nonce only if the hash does not tell them apart (in which case the two signatures give the secret scalar away). If one signature is accepted for two messages under a key that is not of small order (generated keys are not), SHA-512 modulo the group order does not tell the two messages apart; under the neutral element as key one fixed signature is accepted for every message. With the check s < L a signature's second half cannot be changed; without it (older versions of the library) signatures have twins. Together with the coded VRF the scheme satisfies every law the other theorems assume, leaving only output lengths of the hash functions as assumptions.", "quantifier": "all seeds of 32 bytes, all keys of 32 bytes (also maliciously chosen), all messages and signature strings; every hash function with 64-byte output; both versions of the library's check of s", "why_tests_cant": "Universal over adversarial keys, signatures and messages, and over the hash function.", "anchors": ["crypto/sign/sign.go:GenerateKey", "crypto/sign/sign.go:Sign", "crypto/sign/sign.go:Verify", "crypto/sign/sign.go:Public"]}
{"id": "C91", "title": "The audit log protects users exactly as far as the directory's signing key binds", "statement": "With Ed25519 and the VRF as coded: if the directory's public key is not of small order, two users who passed their checks with the same audit log and accepted answers about a name in the same epoch agree, or they hold a hash collision, two STRs with one signature that SHA-512 modulo the group order does not tell apart, or a lucky VRF proof. If the key is the neutral element (which the configuration loader accepts: it checks the length only), the directory can show two users different keys for any name although both follow the chain, all tree hashes have their proper length and both check with the same honest log: the chain commits to signatures, not to what was signed.", "quantifier": "all servers, histories of the log, interactions of two users, names, epochs and keys; all hash functions with the right output lengths", "why_tests_cant": "Quantifies over malicious keys and unbounded interactive histories; the attack needs a key no honest test generates.", "anchors": ["merkletree/str.go:VerifyHashChain", "protocol/auditor/auditor.go:CheckSTRAgainstVerified", "protocol/client/consistencychecks.go", "protocol/auditlog/auditlog.go:GetObservedSTRs", "application/config.go:LoadSigningPubKey", "crypto/sign/sign.go:Verify"]}
{"id": "C92", "title": "Everything written out: the actual hash functions, and the repository's own expected value", "statement": "With SHAKE128, SHAKE256 and SHA-512 themselves in place of the hash functions left open elsewhere, every law the other properties assume holds, so they hold of the system as it runs, without a cryptographic parameter; the proof for a name, made with any private VRF key, is accepted exactly if the name is not hashed to the neutral element (which 'bob', for one, is not); and ComputeDirectoryIdentity of the first STR of the repository's test directory is the literal 32 bytes its test expects. The weakness of C91 (a signing key that is the neutral element) is one of these actual functions: two users who check with one log can be shown two keys for 'bob'.", "quantifier": "all messages, output lengths, names and keys; for the expected value: the one test directory, whatever the nonce of its tree", "why_tests_cant": "The laws range over all messages and keys. The expected value is one test; it is here to tie the whole model (field arithmetic, VRF keys, signatures, serialisation, digests) to a value computed by the real program.", "anchors": ["crypto/util.go:Digest", "crypto/vrf/vrf.go:GenerateKey", "crypto/sign/sign.go:Sign", "protocol/auditor/common.go:ComputeDirectoryIdentity", "protocol/auditor/common_test.go:TestComputeDirectoryIdentity", "crypto/testutil.go", "merkletree/testutil.go:StaticPAD"]}
{"id": "C93", "title": "Byte slices are shared only where documented: no call overwrites existing bytes, and buffers may be reused", "statement": "Creating, reading and updating a directory (and Set, Get and Clone of a Merkle tree) never write into an array that existed before the call, so nothing a caller holds — the key passed to Register, an earlier answer, a snapshot of an earlier epoch — is changed behind its back, whatever capacity the run time gives to appended slices; calls give the answers they would give if every slice were a separate copy. After a call the directory's keys, trees and signed roots refer only to arrays they referred to before and to new ones; only a temporary binding refers to the key buffer passed to Register, and no binding survives Update. Hence a caller may overwrite every buffer of its own (a key buffer once the next Update is done), for any history; and an answer marshalled after the lock is released reads as at its return. Not safe, and shown so on concrete runs: overwriting the key buffer between Register and Update, the signing key buffer given to New, the index buffer given to MerkleTree.Set, or the value in an answer (shared with the tree and every snapshot).", "quantifier": "for every directory and memory reached, every call, every layout of offsets, lengths and capacities of the slices, every growth policy of append, every history of calls, buffer allocations and overwrites by the caller, every crypto instance", "why_tests_cant": "Aliasing shows only for particular capacities and only if somebody later writes into a shared array; the claim is about all arrays, all capacities and all later histories.", "anchors": ["merkletree/merkletree.go: Set, Get, Clone, insertNode", "merkletree/node.go: newInteriorNode, clone", "merkletree/str.go: NewSTR, Serialize, SerializeInternal", "protocol/policy.go: Serialize", "merkletree/pad.go: NewPAD, Update, Set, Lookup, LookupInEpoch, GetSTR, Sign", "protocol/directory/directory.go: New, NewTB, Register, KeyLookup, KeyLookupInEpoch, Monitor, GetSTRHistory, Update, SetPolicies", "application/serverbase.go: acceptClient (marshals after unlocking)"]}
{"id": "C94", "title": "Answers fit into a message when names are spread: what a whole deployment needs, down to the actual hash functions", "statement": "Every authentication path a directory ever serves (any answer, any epoch) has at most k hashes if the indices of the names registered so far already differ in their first k bits. Hence, if all names of a session are spread within dep bits, keys have at most K bytes and names at most 800 (130*dep + 3*K at most 6900, for example 32 bits and 900 bytes), every request and every answer of a session fits in 8192 bytes, and what an honest server's user sees on the screen is what happened to the names - from the files written by `coniksserver init` and the client's configuration to the last line of output - with no assumption about message sizes. With the actual hash functions, curve and signatures the only thing left to suppose is that no name hashes to the neutral point and that no two distinct names in play have indices whose first dep bits collide (an explicit truncated SHAKE256 collision); if only the name \"bob\" is in play, nothing at all.", "quantifier": "all installations, directories, histories of other users, sessions of commands, names and keys within the stated sizes, all depths dep and key sizes K with 130*dep + 3*K <= 6900", "why_tests_cant": "The length of a path depends on the whole set of registered names, and the text on the connection on every path, key and name of a session; a test sees a few shallow paths.", "anchors": ["/repo/merkletree/merkletree.go: Get, Set", "/repo/protocol/directory/directory.go: Register, KeyLookup, KeyLookupInEpoch, Monitor", "/repo/application/serverbase.go: acceptClient", "/repo/application/testutil/testutil.go: NewTCPClient, NewUnixClient", "/repo/application/encoding.go: MarshalResponse", "/repo/crypto/vrf/vrf.go: Compute, Prove, hashToCurve", "/repo/cli/coniksclient/internal/cmd/run.go: run"]}
{"id": "C95", "title": "What the server's log tells: every failed request once, never names or keys, and not every sender", "statement": "Each connection leaves in the log only what follows from its outcome (read failure, not a request, refused type, or the code of the directory's answer), the peer's address and an error of sending: two runs whose connections have the same outcomes, addresses and I/O errors give the same log, so no name, key, proof or signature is ever logged. For every failure code and address the number of warnings equals the number of requests answered with this code; successes and epoch updates leave nothing; a reload leaves one entry, \"Policies reloaded!\" exactly if the policies were replaced. All messages except errors of the system are fixed one-line texts (no log injection), and both environments write everything. On start there is one entry per address and a warning exactly if no address permits registration. Whoever knows which name was looked up can tell from the log whether it was registered. Refuted: every refused message is traceable (what is no request leaves no trace, refused types are logged without the sender); the start entry says whether its address accepts registrations (all addresses after one that does are announced as doing so too, also with the default configuration); starting is free of data races (exactly if no address but the first permits registration).", "quantifier": "all directories, permission tables, texts sent, sequences of connections, ticks and reloads, texts of I/O errors; all lists of addresses and all schedules of the goroutines that announce them", "why_tests_cant": "That something is never logged, and that counts agree, are statements about all runs; the races and the wrong announcement depend on the schedule and the order of addresses.", "anchors": ["/repo/application/logger.go: NewLogger, Debug, Info, Warn, Error", "/repo/application/serverbase.go: ListenAndHandle, acceptRequests, checkRequestType, acceptClient", "/repo/application/server/server.go: Run, updatePolicies", "/repo/protocol/error.go: Error"]}
{"id": "C96", "title": "An account holder who asks the proxy is answered, and the key can then be found", "statement": "Take a server and a registration proxy as 'coniksserver init' and 'coniksbot init' set them up and 'run' starts them, with the addresses that accept registrations left to the proxy. Whatever direct messages, messages at the public address, epochs and reloads happen, the deployment keeps running; and at any moment an account holder (ASCII account name of up to 792 bytes, not the proxy's own) who sends the proxy the client's own request gets exactly one direct message back, complete, which the client can read. It says either that the key is promised for the next epoch, with a proof that the name is not in the tree yet, or that the name was taken, showing or promising the key for which an account with that name asked earlier. After a success, whatever happens, anybody who looks the name up at an address that takes lookups reads an answer with that very key: as a promise before the next epoch, in the tree with a valid proof ever after. Nothing is assumed about the size of any answer: it is enough that the indices of the names in use differ within dep bits and keys have at most K bytes with 130 dep + 3 K at most 6900 (32 bits and 900 bytes, say); with the actual hash functions and curve it is enough that no two names in use collide in dep bits of the index hash and none hashes to the neutral element.", "quantifier": "all cryptographic schemes obeying the laws and the actual one; all sequences of direct messages from any accounts, messages at public addresses, epochs and reloads before and after the request; all account names, keys and randomness; all places the two commands are started from", "why_tests_cant": "it combines two programs, the file system, sockets, JSON texts, the 8192-byte limits of both programs and the whole history of the directory; a test sees a few messages", "anchors": ["application/bots/twitterbot.go:HandleRegistration", "application/bots/bot.go:SendRequestToCONIKS", "application/serverbase.go:acceptClient", "application/server/server.go:HandleRequests", "protocol/directory/directory.go:Register", "protocol/directory/directory.go:KeyLookup", "application/encoding.go:MarshalResponse"]}
{"id": "C97", "title": "Clients of one running server agree with each other", "statement": "When many clients talk to one running server at the same time, on any mix of its addresses, while the epoch timer fires and the configuration is reloaded: of all requests to register one name at most one is answered with success; a client told that the name exists is shown (or promised) the key of another request for that name that was made before that answer, and which, if it is answered, is told it succeeded; every lookup of the name made after the winner has its answer returns the winner's key, as a promise while the root is the one the winner saw and in the tree under every later root; all successful lookups of a name return one and the same key; and the roots in the answers of lookups form one chain: one root per epoch for everybody, and a lookup made after an answer has a root at least as new.", "quantifier": "every interleaving of the single memory steps of any number of request handlers, epoch updates and policy reloads, every content of the requests, all pairs of clients and requests", "why_tests_cant": "a test runs a few interleavings of a few requests; that no two clients can both win, and that nobody is ever shown a different key or an older root, is a statement about all schedules", "anchors": ["protocol/directory/directory.go: ConiksDirectory.Register, KeyLookup, Update", "application/server/server.go: ConiksServer.HandleRequests, Run, updatePolicies", "application/serverbase.go: acceptClient, RunInBackground", "merkletree/pad.go: PAD.Lookup, Update"]}
{"id": "C98", "title": "A server under load is never accused", "statement": "While any number of clients use one running server at the same time, a client program that was set up with the server's first root, waits for each answer before it asks again, and whose answers skip no epoch, accepts every answer: no consistency check ever fails, whatever the other clients, the epoch timer and the reloads do in between. The one thing it may report is that a name belongs to another key, exactly when the answer names another key than the one it asked for; and after every answer the root it holds is the one in that answer. When names are spread in the tree as C94 asks, every such answer also fits into a message and is read by the client as the server sent it.", "quantifier": "every interleaving of the single memory steps of all handlers, epoch updates and reloads, every number of clients and every content of their requests, every sequence of registrations and lookups of the client in question", "why_tests_cant": "whether a false alarm can happen depends on how the steps of all handlers and of the epoch update interleave; tests run one request at a time", "anchors": ["protocol/client/consistencychecks.go: ConsistencyChecks.HandleResponse, updateSTR, checkConsistency, updateTBs", "protocol/auditor/auditor.go: AudState.AuditDirectory", "protocol/directory/directory.go: ConiksDirectory.Register, KeyLookup, Update", "application/serverbase.go: acceptClient"]}
{"id": "C99", "title": "One past for everybody", "statement": "Whatever the answers of one running server show about past epochs agrees, whoever asks and whenever: any two answers (to registrations, lookups, lookups in an epoch or monitoring requests, of any two clients) that show something for the same epoch show the same root, and for the same name the same key or the same absence. In particular the key of a successful registration is what every answer shows for that name in every epoch after the one whose root came with the success, and no answer ever shows any key for it in that epoch or an earlier one. An answered lookup in a past epoch shows that very epoch, and its code is success exactly if a key is there; an answered monitoring request leaves no gap: it shows every epoch from the first one asked for up to one that is the last asked for, or at least as new as anything anybody was shown before the request was made.", "quantifier": "every interleaving of the single memory steps of any number of request handlers, epoch updates and policy reloads, every content of the requests, all pairs of answers and all epochs in them", "why_tests_cant": "that no pair of clients can ever be shown two pasts is a statement about all pairs of answers in all schedules of an unbounded run; a test compares a few answers", "anchors": ["protocol/directory/directory.go: ConiksDirectory.KeyLookupInEpoch, Monitor, Register, KeyLookup, Update", "merkletree/pad.go: PAD.LookupInEpoch, GetSTR, Update", "application/server/server.go: ConiksServer.HandleRequests, Run, updatePolicies", "application/serverbase.go: acceptClient, RunInBackground"]}
