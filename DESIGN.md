# Formal model of coniks-go in Coq: design

## Approach

The model is a set of total, computable Gallina functions, one per Go function,
in `rocq/theories/*.v`. Each definition cites the Go file and lines it models and
states its simplifications. Go panics (explicit, nil dereference, index out of
range, failed type assertion) are values (`Panic`) of a result type, so "does not
panic" is a theorem and not a modelling assumption. Go `error` values are ordinary
results. Pointers that may be nil in decoded messages are `option`s.

SHAKE128 and Ed25519 (from golang.org/x/crypto, not in the repository) and the VRF
are fields of a record `Crypto`; theorems above that level quantify over every such
record and assume only the laws in `CryptoOk` (lengths, correctness of honest
signatures). No collision resistance is assumed: security theorems
conclude "or here is an explicit collision among these listed hash inputs". A
concrete toy instance shows `CryptoOk` is satisfiable and runs the examples.

The VRF itself is not assumed: VRF.v models `crypto/vrf` on top of the field, scalar
and curve code of `crypto/internal/ed25519`, down to int32/int64 limbs with Go's
wrap-around, with only SHAKE256 as a parameter, and C64 proves that the code meets
the laws of `CryptoOk`. That an honest VRF proof is accepted is not among the laws: it
is false of the code for a message hashed to the neutral element (C49), and C64 says
that these are the only ones. Theorems about honest directories therefore ask for it
of the names involved (`vrf_good` in PADSpec.v), next to the condition that their
indices differ in 248 bits.

Randomness is an argument of each operation (`None` = entropy failure).

False properties are stated and refuted (`..._refuted` theorems with concrete
witnesses), next to the strongest corrected statement we can prove.

Each `Prop_*.v` file holds the property theorems (`Cnn_...`), `Print Assumptions` for
them, and examples showing that their hypotheses are met by non-trivial data.
`*Spec.v` files hold the independent specifications.

## Trusted base

- Coq 8.16.1's kernel, including its bytecode machine (`vm_compute`,
  `vm_cast_no_check`) used for closed computations: the primality certificates, the
  precomputed tables, the interval analyses of the limb programs, examples. `coqchk`
  checks the same terms again without the bytecode machine.
- `Print Assumptions` answers "Closed under the global context" for every theorem
  named in MANIFEST.json: no axioms, neither our own nor the standard library's. Only
  the Coq standard library is used. (`coqchk` additionally lists fields of module types
  of `Coq.ssr.ssrunder`, which the standard library loads; nothing depends on them.)
- That the model says what the Go code does. To keep this checkable, definitions follow
  the Go text function by function with line references. The arithmetic of
  `edwards25519.go` (10k operations) is not transcribed by hand: `tools/gen_edcode.py`
  and `tools/gen_edconst.py` translate the Go text line by line into `EdCode.v` and
  `EdConst.v` (programs as data, run by the semantics of GoInt.v).
- The specifications (`*Spec.v`, and the statements of the theorems).

## What is modelled

| Go code | Model |
|---|---|
| `utils/` | Utils.v |
| `crypto/util.go` | Crypto.v |
| `merkletree/` (node, merkletree, proof, str, pad) | Tree.v, STR.v, PAD.v; with pointers and in-place mutation: TreeHeap.v, PADHeap.v; with byte slices as windows on shared arrays (also `protocol/policy.go`, `protocol/directory`): Slices.v |
| `protocol/` (messages, policies, errors, TBs) | Protocol.v |
| `protocol/directory` | Directory.v |
| `protocol/auditor`, `protocol/auditlog` | Auditor.v |
| `protocol/client` | Client.v |
| `storage/kv/range.go` | Storage.v |
| `storage/kv/kv.go`, `storage/kv/leveldbkv/leveldbkv.go` (calls, batches, iterators, crashes; LevelDB's write path from its documentation) | Kv.v |
| `application/encoding.go`, `application/client/encoding.go`, and the text format of `encoding/json` | Json.v, Wire.v (JSON values), JsonText.v, Text.v (bytes on the wire, the 8192-byte limit) |
| `path.Join`, `filepath.Dir`, `utils.ResolvePath` | Path.v |
| `application/serverbase.go`, `application/server` | Server.v; requests, ticks and reloads under the lock: Conc.v; listeners, wait groups and shutdown: Lifecycle.v |
| `application/config.go`, `config_encoding.go`, `logger.go` (opening the log), `application/server/config.go`, `application/client/config.go`, `coniksserver init`/`run`, `coniksclient init`, `testutil.CreateTLSCert` (its files) | Deploy.v |
| `application/logger.go` (levels and calls), its uses in `application/serverbase.go` and `application/server/server.go`, the announcements in `Run` | Log.v |
| `application/bots`, `cli/coniksbot` | Bot.v (handling of messages), BotDeploy.v (configuration, sockets, the whole deployment), BotMail.v (the mailbox) |
| `cli/coniksclient`, error texts of `protocol/error.go` | Cli.v, Repl.v |
| `crypto/internal/ed25519/edwards25519` | GoInt.v, EdCode.v, EdConst.v, Field.v, FieldPow.v, Scalar.v, Group.v |
| `crypto/internal/ed25519/extra25519` | Extra25519.v, FieldPow.v, Group.v, Elligator.v |
| `crypto/vrf` | VRF.v |

Proofs over these: `*Facts.v`, `*Main.v`; TreeHist.v, JointFacts.v; NumTheory.v (Fermat,
Pocklington), FastZ.v (multiplication that is fast without machine integers), Fp.v (the field), EdGroup.v (the curve is a group), EdOrder.v, EdCyclic.v.

## What is not modelled

- SHAKE128/SHAKE256 (outside the repository) and Ed25519 signatures: parameters of the theorems. Ed25519.v writes the signature scheme down after RFC 8032 (the library is not in the repository either) and C90 shows that it has the properties assumed; SHA-512 remains a parameter there. Hashes.v writes SHAKE128, SHAKE256 and SHA-512 down after FIPS 202 and FIPS 180-4; C92 instantiates everything with them and reproduces the one literal value the repository's tests contain (`TestComputeDirectoryIdentity`).
- Of encoding/json: the nesting limit and the values of numbers with a fraction or
  exponent (every such number is one token, as no field of the protocol accepts it).
- TCP, TLS, timers as real time, the file system beyond the calls made (atomicity of
  `os.Rename` etc. is not used by the code), logging, cobra flag parsing. The TOML
  library (outside the repository) is a parameter of Deploy.v whose only law is that it
  reads back the documents it wrote (UTF-8 strings, integers below 2^63); DeployFacts.v
  has an instance. Symbolic links, permissions and path components that do not exist
  are not modelled; sockets and certificates are an oracle in Deploy.v.
- LevelDB itself: its write path and replay are written down from its documentation (Kv.v); compaction, read errors, corrupted files, group commit and use after Close are not modelled.
- The Go memory model: Conc.v interleaves the handlers' accesses step by step under the
  RWMutex with arbitrary torn intermediate states; data-race freedom is what C42 shows.
- Unused parts of the arithmetic packages: `FeCopy`-like helpers that are plain
  assignments.

## Plan per property

- **C01 Merkle tree behaves as a map from index to (key,value)** (Tree.v). Tree histories as lists of Sets from the fresh tree; refinement to a finite map by an invariant on the trie (every leaf sits at its own index prefix) and induction over the history.
- **C02 Set/Get never panic on equal-length indices** (Tree.v). Go panics are an explicit result (Panic); prove the result is Ok for all reachable trees.
- **C03 Tree and root hash are independent of insertion order** (Tree.v). Canonical form: hash is a function of the (index -> commitment) map; prove by extensionality of well-formed tries.
- **C04 Proof completeness: every proof produced by Get verifies** (Tree.v, PathFacts.v). Induction along the path: folding the path returned by Get gives the from-scratch root hash.
- **C05 Authentication paths are well-shaped** (Tree.v). Invariant levels = depth.
- **C06 Incremental hashing equals hashing from scratch** (Tree.v). Cache invariant: a cached child hash, when present, is the from-scratch hash.
- **C07 Clone is faithful and isolated** (Tree.v, TreeHeap.v). Functional clone first; pointer-level heap model for isolation.
- **C08 Clone of a tree with pending changes also behaves like the original** (Tree.v). Expected false: clone turns an invalidated (nil) hash into a non-nil empty slice. Prove the refutation and the corrected statement (clean trees).
- **C09 Root hash commits to the whole tree** (Tree.v, PathFacts.v). Structural induction with explicit hash-input lists.
- **C10 reshuffle preserves all bindings** (PAD.v). Induction over visitLeafNodes order.
- **C11 Inclusion proofs bind: one value per index and root** (Tree.v, PathFacts.v). Expected false without side conditions (IsEmpty flag and salt length unchecked): prove refutations for every Digest, then the corrected theorem with an explicit collision.
- **C12 A root cannot prove both inclusion and absence of one index** (Tree.v, PathFacts.v). As C11; prefix argument on paths.
- **C13 Soundness against the honest tree** (Tree.v, PathFacts.v). Path-vs-tree induction.
- **C14 Verify never panics on data received from a server** (Tree.v, PathFacts.v). Expected false: exact characterisation of the panicking inputs, and the theorem for well-shaped ones.
- **C15 STR serialization is unambiguous** (STR.v). Injectivity of fixed-length concatenations.
- **C16 PAD history is a valid hash chain** (PAD.v). Invariant over PAD histories.
- **C17 Fork consistency of the hash chain** (STR.v). Backwards induction along both chains.
- **C18 Snapshots are immutable** (PAD.v). Snapshots are values; the invariant relates each cached epoch to the recorded history.
- **C19 Sets become visible exactly at the next Update** (PAD.v). As C18 with pending map.
- **C20 PAD cache: contiguous suffix, bounded, newest always available** (PAD.v). Invariant on loadedEpochs/cap incl. the growth of cap by append.
- **C21 Lookups in any cached epoch verify against that epoch's STR** (PAD.v). C04 + VRF completeness law.
- **C22 One registration per name; bindings never change** (Directory.v). Invariant over request histories relating tree, TBs and the registered-name map.
- **C23 Temporary bindings are fulfilled** (Directory.v). As C22.
- **C24 Directory response codes tell the truth** (Directory.v). As C22: abstract specification state machine, refinement.
- **C25 Every well-typed client request gets a response; no request crashes the directory** (Directory.v, Server.v). No-panic for the four name requests; refuted for STR history (see C27).
- **C26 Lookup-in-epoch and monitoring answers carry complete consecutive STR chains** (Directory.v). Range lemmas over cached epochs.
- **C27 STR history answers are complete or an error** (Directory.v). Expected false (evicted epochs): refutation plus corrected statement for cached ranges.
- **C28 Policy changes take effect at the following epoch** (Directory.v). Expected false (two epochs): refutation plus exact behaviour.
- **C29 VRF/TB configuration is constant** (Directory.v). Invariant.
- **C30 Honest end-to-end completeness** (Client.v). Simulation between directory history and client state.
- **C31 Client acceptance is sound** (Client.v). Inversion of HandleResponse = success.
- **C32 The client's verified STR only moves forward along one signed chain** (Client.v). Induction over response sequences.
- **C33 Two clients who accept conflicting values can prove equivocation** (Client.v). C31 + C11 (corrected hypotheses).
- **C34 Key changes between lookups are detected (pinning)** (Client.v). Expected false (GetKey returns nil): refutation, and what holds when the caller passes the expected key.
- **C35 Broken promises are detected** (Client.v). Expected false in general (absence answers); refutation and the proved inclusion case.
- **C36 Malformed responses are rejected, not crashed on** (Client.v). Expected false; exact panic conditions and no-panic for well-shaped messages.
- **C37 Auditor accepts only signed linear histories** (Auditor.v). Inversion and induction on the STR list.
- **C38 Audit log serves exactly the observed history** (Auditor.v). Induction over audit-log histories.
- **C39 Audit log contents are always verified** (Auditor.v). Expected false for InitHistory with unverified snapshots; proved for Audit.
- **C40 An auditor exposes equivocation** (Client.v). Inversion of CheckEquivocation.
- **C41 Registration only over permitted addresses** (Server.v). Case analysis on the permission table built from the configuration.
- **C42 Concurrent requests and epoch updates are atomic** (Server.v). Small-step interleaving semantics of handlers with the RWMutex; invariant + simulation.
- **C43 Wire encoding round trip** (Wire.v). JSON AST-level codec; byte-level JSON of encoding/json is trusted.
- **C44 The server's epoch timer follows the policy deadline** (Server.v). Expected false: the timer uses another configuration field. Refutation.
- **C45 Bot registers only names authenticated by the account provider** (Bot.v). Case analysis; the one-account-one-name part is expected false (case folding).
- **C46 Bit and integer encodings** (Utils.v). Induction / finite case analysis on bytes.
- **C47 Prefix ranges contain exactly the keys with the prefix** (Storage.v). Lexicographic order lemmas.
- **C48 Commitments open to one value** (Crypto.v). List cancellation plus explicit collision.
- **C49 VRF completeness** (VRF.v, VRFFacts.v). Verify accepts exactly the specified proofs (C62); the honest proof satisfies the specification by group algebra. Refuted for messages that hash to the neutral element.
- **C50 Scalar arithmetic modulo the group order is correct** (Scalar.v, EdCode.v). Limb program over Z generated from the source text; interval analysis for overflow; congruence by ring/lia.
- **C51 Field arithmetic modulo 2^255-19 is correct** (Field.v, FieldPow.v, EdCode.v). As C50.
- **C52 Inversion and exponentiation chains compute the right power** (Field.v, FieldPow.v, EdCode.v). Exponent tracking through the chain.
- **C53 Byte-string comparison in the Elligator code** (Extra25519.v). Loop model over bytes; refuted as documented (strict), exact behaviour proved.
- **C54 Existing files are never overwritten** (Utils.v). Abstract file-system state.
- **C55 No message, tick or reload crashes the server** (Server.v, ServerWire.v). Invariant of the server state over all schedules of messages, ticks and reloads.
- **C56 The saved initial STR** (Server.v). File-system state machine; refuted for restarts.
- **C57 The command-line client** (Cli.v). Case analysis of the output against the consistency checks.
- **C58 Curve arithmetic** (Group.v, EdGroup.v, GroupFacts.v). The addition law is proved to be a group by polynomial identities; the code's formulas are related to it by a representation relation with limb bounds. Order: primality certificates, Lagrange, an explicit generator.
- **C59 Point encodings** (EncFacts.v, PointFacts.v). Square-root extraction by Fermat exponents.
- **C60 Scalar multiplication** (MulFacts.v, BaseFacts.v, SmulFacts.v). Loop invariants; signed-digit recoding by induction; table entries checked by computation inside the kernel.
- **C61 Hashing to the curve** (PointFacts.v). Elligator 2 by quadratic characters.
- **C62-C63 VRF verification** (VRFSpec.v, VRFFacts.v). Verification equals its specification; soundness by discrete logarithms in the prime-order group.
- **C64 The VRF code meets the laws** (Prop_VRF.v). From C49 and C62: `CryptoOk` holds of the coded VRF without conditions, and the honest proof of a message is accepted exactly when the message is not hashed to the neutral element.

- **C65-C66 Bytes on the wire** (JsonText.v, Text.v). A parser and printer of JSON text with a round-trip theorem; the 8192-byte cut; sizes of the protocol's messages.
- **C67-C68 Shutdown** (Lifecycle.v). Goroutines as program counters, wait groups with their internal states; invariants over all schedules; a well-founded measure and absence of deadlock.
- **C69-C73 Deployment** (Deploy.v, DeployFacts.v). A disk as a map from places to files; every write may fail or be the last act of the process; invariants over sequences of inits; exact characterisation of Load; composition of init, run and client with C30 and C56.
- **C74-C76 Elligator and key conversion** (Elligator.v, ElligatorFacts.v). The two square-root branches by Fermat exponents and quadratic characters; exact image and fibres of the map; examples by certificates checked in the kernel.
- **C77 VRF secrets** (Prop_Nonce.v). `Prove` characterised with its hiding number; distinctness by prefix-injectivity up to an explicit hash collision; recovery of the secret from a repeated commitment by inversion modulo the prime order.
- **C78 snapshots by reference** (PADHeap.v, PADHeapFacts.v). Tree nodes, tree objects and STR objects in one memory, the epoch slice with its array; forward simulation to PAD.v on top of the forest refinement of C07; pointer k is the k-th STR ever issued.
- **C79 proxy deployment** (BotDeploy.v, Prop_BotDeploy.v). Configuration of the bot (TOML as a parameter), `url.Parse` as far as the server's socket path depends on it, sockets as places; then the whole deployment (server, proxy, messages at any address, ticks, reloads) as one transition system, with C24, C45, C66, C71 used to conclude what lookups deliver.
- **C80 the proxy's mailbox** (BotMail.v, Prop_BotMail.v). `deleteOldDMs` against arbitrary outcomes of every call, the handler's timers; induction over turns and over the stream.
- **C81 privacy** (Privacy.v, Prop_Privacy.v). Two directories in lockstep whose calls differ only in names, keys and salts that nobody asks for (same indices, same commitment digests); a simulation relation through tree, PAD and directory shows all answers equal. No cryptographic law is needed.
- **C82 liveness** (ConcLive.v, Prop_Live.v). Goroutine phases decrease in a well-founded order, so without arrivals every schedule ends; by C42's progress and C55's no-crash it ends with everything answered. For infinite runs the lock of Conc.v is refined to Go's sync.RWMutex (pending writer, sleeping readers, woken readers); fair runs are infinite sequences in which no runnable goroutine is left out for ever and the inner mutex does not starve a waiter (both are hypotheses about the Go runtime); by induction over the readers inside, the writer gets in, and everybody is answered. A concrete fair run is built from a finite schedule.
- **C83 no equivocation, end to end** (Equiv.v, Prop_Equiv.v). A careful user's verified STRs form a signed chain whose tree hashes are 32 bytes long (the accepted path hashes to them). Both chains and the log's record are compared from the checked epoch downwards: equal signatures mean equal bytes, equal bytes of well-sized STRs mean equal contents, equal contents mean equal hash of the previous signature. At the common epoch C11/C12 apply. The attack that exploits the missing length check is constructed for every crypto instance, and shown to leave no evidence in the toy one.
- **C84 the client program** (Repl.v, Prop_Repl.v). One turn of the loop as a function of the line and of what the connection will give; sessions by recursion. Words: `Fields` is proved equivalent to an inductive specification on characters. Announcements: the texts are pairwise apart, then C57_good_news_iff. Errors named: every code HandleResponse can return has a text. Honest sessions: texts of at most 8192 bytes are read back (C65), so the text-level run equals the JSON-level run of C57_honest_server.
- **C85 the key-value store** (Kv.v, KvSpec.v, KvFacts.v, Prop_Kv.v). A transition system: calls in progress as lists of primitive steps of LevelDB's write path (append to the journal, force it, make visible), one lock, operating-system buffers that may reach the disk at any time, failures, crashes that lose an arbitrary tail of the buffers, reopening by replay. The specification (KvSpec.v) is linearizability with explicit moments of effect; the invariant relates journal, buffers and contents to the list of effects so far, with at most one undecided record. Durability, batches, foreign batches and scans follow from it. The specification is shown to refuse a lost write.
- **C86 an installation** (Prop_Install.v, no new model). `C86_serving`: what `coniksserver run` has done when it serves, for every configuration (permissions by address, first STR in its file). `C86_install_to_screen`: composes it with the client's loading of its configuration (C72) and the session theorem C84_honest_server. `C86_default_server`: instance for what `coniksserver init` makes. `C86_registration_refused`, `C86_default_pair_refuted`: what happens at an address that takes no registrations, and that both default configurations together are such a case. `C86_nonvacuous`, `ins_screen_is`: the README's test set-up, run inside Coq.
- **C87 the Merkle prefix tree** (MptSpec.v, MptFacts.v, Prop_Mpt.v, no new model). MptSpec.v defines the hash at a position (a bit prefix) directly from a set of entries, as the CONIKS paper does, without trees or insertion; MptFacts.v shows that a well-formed dense tree (the invariant of C01-C06) hashes to it, and follows `Get` down. `C87_root_hash`, `C87_path`: for every history of tree operations; `C87_epochs`: for every signed tree root of a PAD; `C87_stored_exists`: the set of entries exists for every history. `C87_nonvacuous`, `C87_epochs_nonvacuous`: concrete histories.
- **C88 Clients with the coded VRF** (Prop_Whole.v). `lucky`: a proof whose point is not the one the key determines and whose only answerable challenge was returned by the hash function; uniqueness by the discrete-logarithm argument of C63 (existence of logarithms, not knowledge). C33 and C83 instantiated with `CodeCrypto`, their evidence of two VRF outputs turned into `lucky`. Refuted without `lucky` by a hash function with constant challenges.
- **C89 secret-independent observations** (Leak.v, Prop_Leak.v). The functions on the path of Prove, Compute and GenerateKey once more in a monad that records branches, array indices, calls and hash lengths; proved to return the values of the VRF model (C49) and, by composition (`same_bnd`, `same_loop`), the same record for any two keys. Straight-line functions are one event, justified by `C89_straight_line` about `exec`. Not modelled: instruction timing, compiler, allocator, SHA3's own code.
- **C90 signatures** (Ed25519.v, Prop_Ed25519.v). `crypto/sign` wraps a library outside the repository, which is written down after RFC 8032 (5.1) with the modelled edwards25519 functions; `ed_valid` is the equation in the group. Binding by the order argument of EdCyclic.v. `C90_laws`: the laws of `CryptoOk` hold with the coded VRF and this scheme for all hash functions with the right output lengths.
- **C91 weak signing keys** (Prop_Weak.v, no new model). C88's no-equivocation with the signature clause replaced by a coincidence of SHA-512 mod L, for keys not of small order; and the attack with the neutral element as key, in the vocabulary of C83.
- **C92 nothing left open** (Hashes.v, BaseMult.v, Prop_Real.v). The sponge and the compression function over N, output lengths by induction over blocks, `RealCrypto` = `EdCrypto` with them. The expected value: keys and signature by C77_key and C90_key_and_signature, so that only three multiples of the base point remain, checked by certificate from the code's own table (BaseMult.v), and six hash computations.
- **Cases** (Cases.v, and the `Example`s at the end of most Prop files). Beside each theorem a concrete case that meets its hypotheses; Cases.v collects those that are not next to their theorem (C09, C11-C14, C18-C20, C22, C23, C28, C29, C31-C38, C40), where "... or a hash collision" theorems are met also with a lawful scheme whose hash is constant, so that the second alternative is the one that holds.
- **C93 slices** (Slices.v, SlicesSpec.v, SlicesFacts.v, SlicesDir.v, Prop_Slices.v). Tree, STR, PAD and directory once more, with every `[]byte` field a window (array, offset, length, capacity) on memory, `append` in place if the capacity suffices and otherwise with a growth chosen arbitrarily. One lemma per function: it panics when the function of Tree.v/PAD.v/Directory.v does; otherwise memory is extended, never overwritten, every slice of the result lies in a given set of arrays or in a new one, and reading it gives the value-level result. Histories by induction over the caller's steps, with the invariant that the caller's buffers are disjoint from what the directory keeps. The four unsafe reuses are concrete runs. Nodes are values here (their sharing is C78 and TreeHeap.v); slices of pointers and `[32]byte` arrays too.
- **C94 fit** (Prop_Fit.v, Prop_FitReal.v). The depth of a tree's branches: if all keys differ within k bits, every node at level k or below is a leaf or empty, so Get prunes at most k hashes; carried through snapshots by the PAD history invariant. JSON sizes of every kind of answer (Prop_Text) then turn the size hypothesis of C84/C86 into one on names and keys. With `RealCrypto` the VRF index is shown to be SHAKE256 of a string from which name and hash point can be read back, so that missing spread is an explicit collision; acceptance of honest proofs is C89's. For one name both are trivial.
- **C95 log** (Log.v, Prop_Log.v). `acceptClient` again, from the bytes read, with the calls of the logger as output; runs of connections, ticks, reloads; the start of the server as an interleaving of the loop in `Run` with the goroutines that announce the addresses. A verdict per connection is defined from the request decoder and `srv_sem` (C41, C42), the log shown to be a function of it; noninterference and counting by induction on runs, the announcements by an invariant up to permutation. Not modelled: time stamps, stack traces, zap's layout.
- **Prop_Tight.v**: theorems for C79 and C84 added after mutants survived (escapes, socket names and their owners, white space, texts of codes, leaving), each against a description of its own.
- **C96 account holders** (Prop_FitBot.v). The deployment of C79 (server, sockets, proxy, direct messages) with the sizes of C94: totality of every event by C25, the history of the directory by induction over events, the answers by C24/C94, the default configuration by C79_default_meeting, the actual functions by C92/C94.
- **C97 clients together** (Prop_Together.v). A linearisation of the run (C42) is fixed once; every operation has a place in it, the history before that place is the state it saw (C24 decides its answer), the registrations of a prefix stay in every longer one, a registered key goes back to a success by induction over the order, and operations that do not overlap keep their order.
- **C98 never accused under load** (Prop_Concur.v). The order of C42/C97 cut at the places of our client's requests: between two of them lie other people's operations with at most one update (the epochs in the answers say so), which the invariant of C30 (joint_inv) survives; each of our requests is one step of C30; the answer is the one of the run because the directory's state at a place is determined.
- **C99 one past** (Prop_Past.v). Per answer: what it shows under a root is what was registered up to that root's update in the history before the answer's place in C42's order (C24, C26), and the root is the one published there; two places are two beginnings of one history, so equal epochs give equal roots and keys; the registration's place gives the epoch from which the key is shown.

## Findings

Statements that a user would expect and that are false of the code; each is proved
(theorems ending in `_refuted`, or the exact characterisation), see MANIFEST.json.

1. An inclusion proof whose leaf is flagged `IsEmpty` verifies for any value (C11); salt, nonce and commitment lengths are not checked (C11, C12).
2. An empty node at level 249 or deeper can be used with an index equal to the one looked up (C12).
3. `AuthenticationPath.Verify`, `HandleResponse`, `CheckEquivocation`, `Audit` and `UnmarshalResponse` panic on some decodable messages (C14, C36, C43).
4. `GetSTRHistory` panics for epochs dropped from the cache (C27).
5. Cloning a tree with pending changes gives wrong hashes (C08).
6. The client never fills its bindings, so a key change between lookups is not noticed unless the caller passes the key (C34); the command-line lookup prints an empty key (C57).
7. Broken promises are noticed in proofs of inclusion only (C35).
8. New policies take effect two updates later (C28).
9. `InitHistory` stores the snapshots after the first unverified (C39).
10. The epoch timer uses a configuration field that is never set (C44).
11. The bot compares names ignoring case while the directory does not (C45).
12. STRs and temporary bindings are signed without domain separation; the epoch-0 STR omits the previous epoch (C15).
13. User names that are not valid UTF-8 are altered by the wire encoding and can collide (C43).
14. Commitments do not delimit key and value (C48).
15. `WriteFile` checks and then creates: concurrent callers can overwrite (C54); a stale initial STR file survives a restart (C56).
16. Audit and STR-history requests sent to the directory are decoded untyped and refused (C43).
17. An honest VRF proof is rejected when the message hashes to the neutral element (C49); VRF proofs are malleable (C63).
18. `GeDoubleScalarMultVartime` is wrong for scalars near 2^256 (C60); `ScNeg(0)` returns L (C50); documented limb bounds are exceeded by the group code, safely (C51).
19. Messages are cut at 8192 bytes in both directions: a lookup 24 or more epochs back and monitoring of 17 or more epochs cannot be read by the client, keys of 6144 bytes or more cannot be registered (C66).
20. With two or more addresses (the generated configuration has two) Shutdown can crash on a misused WaitGroup; a second Shutdown always crashes (C67); with a zero timer interval Shutdown can be delayed without bound (C68).
21. `init -c` replaces existing TLS files; an init killed while writing a private key leaves a folder that cannot be repaired by init; a stale sign.pub is kept beside a new private key (C69).
22. A configuration without policies, logger or address part makes Load panic instead of failing, so a hot reload can kill the server; an omitted log path makes the server panic although the logger supports it (C70).
23. The path stored in the configuration file replaces the one it was loaded from: after `init -d dir`, a server started inside `dir` saves no initial STR and ignores reloads (C71).
24. Without TLS files the server crashes after saving its initial STR, and that file does not belong to the next server started (C71).
25. The client's default paths agree only under a folder called "keyserver" (C72); coniks.pid keeps digits of an earlier, longer number (C73).
26. Elligator representatives never have their top bit set, so they can be told from random strings; the branch is chosen by v < (p-1)/2 where the comment says <=; the comments on `sqrtMinusA` and `sqrtMinusHalf` name other numbers than their squares, and `FeIsNonZero` is called beyond its documented limb bound, safely (C75).
27. The hash to the curve is four-to-one (C76); Curve25519 keys converted from Ed25519 keys lose the sign (C74).
28. The proxy's check that the server is live only looks whether something exists at the socket path: with a stale file there it starts and refuses everybody (C79_liveness_refuted). Its handle must match the account letter by letter although handles ignore case (C79_handle_case_refuted). Server addresses are URLs and proxy addresses are paths: escapes, '?', '#' or a relative path make them differ, and the server starts without complaint at a socket nobody looks for (C79_other_socket_refuted).
29. One failing listing and the proxy starts with its old mail, logging that it deleted all of it; one message that cannot be destroyed and it never starts; requests sent while it was down are destroyed unanswered; a reply sent less than five minutes before a stop is never destroyed (C80).
30. The length of an STR's tree hash is checked nowhere, and the bytes that are signed do not delimit their fields. A server can therefore sign one byte string that is, for a user, an STR on top of one fork (with the hash of the other fork's signature at the start of the protocol version) and, for the audit log, an STR on top of the other fork (with a 64-byte tree hash). Both users check with the same honest log, nobody sees an error, and they hold different keys for the same name at the same epoch (C83_unsized_log_refuted). On the JSON wire the version must be valid UTF-8, so the attacker has to vary the first fork (the salt, say) until the hash of its signature is: a random 32-byte string is valid UTF-8 with probability about 10^-8, so some 10^8 signatures.
31. The client ignores the error of `url.Parse` and uses the nil URL: with an address such as 127.0.0.1:3000 in the configuration (no scheme; net/url refuses the colon) every register and lookup command crashes the client, while localhost:3000 is reported as "Invalid config!" (C84_bad_address_reported_refuted, C84_other_scheme).
32. `coniksserver init` and `coniksclient init` do not fit together: the client's default registration address is the server's public address, on which the server's default configuration takes no registrations, so every `register` ends in "Error: [coniks] Malformed message" (C86_default_pair_refuted). The READMEs tell users to edit both files.
33. Hashing a name to the curve takes a branch on the sign bit of the hash of the name (`FromParityAndY` negates conditionally), so branches and timing of `Compute` and `Prove` depend on the name looked up (C89_names_refuted); they do not depend on the private key (C89_prove).
34. The hash chain of STRs commits to signatures (`PreviousSTRHash` is the hash of the previous signature) and not to what was signed, and nothing refuses a directory key of small order (`LoadSigningPubKey` checks the length only). A directory whose key is the neutral element has one signature that is valid for every STR, so it can show every user a different tree in an epoch and join the chains again before they check with the auditor: all checks pass (C91_neutral_key_refuted). For every other kind of key C91_no_equivocation holds.
35. Buffers are kept as they are passed in four places (C93): a temporary binding keeps the key given to `Register` until the next `Update`, so a caller that reuses it makes the directory serve an incorrectly signed promise; `New`/`NewPAD` keep both private keys, so clearing the buffer after start-up silently changes the signing key; `MerkleTree.Set` copies the value but keeps the index; and answers share value, salt and commitment with the tree and all snapshots. The server itself never writes into these buffers, so its answers, marshalled after the lock is released, are safe.
36. Logging (C95): bytes that are no request leave no trace in the log, and a refused message type is logged without its sender; `Verb` is set by the loop in `Run` and never reset, so every address after one that permits registration is announced as "Accepting registrations" (with the configuration `coniksserver init` writes: the public TCP address); and it is read by the goroutines without synchronisation, a data race exactly if an address other than the first permits registration. A lookup of a missing name is logged as a warning, a successful one is not, so the log tells which of an address's lookups failed (but never for which names).
