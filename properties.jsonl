{"id": "C01", "title": "Merkle array: every honest proof verifies", "statement": "For an array of any size and any non-empty list of in-range positions (in any order, with repetitions), Tree::prove succeeds and Tree::verify accepts the returned proof against Tree::root together with the map sending each requested position to the hash of the array element there. With no positions the proof is empty and is accepted with the empty map.", "quantifier": "all arrays (length below 2^64), all lists of in-range positions, every hash function with 32-byte output", "why_tests_cant": "A test samples a few sizes and subsets; the sibling bookkeeping depends on the shape of the position set at every level of the tree.", "anchors": ["src/crypto/merklearray/merkle.rs: Tree::from_array, Tree::root, Tree::prove, Tree::verify", "src/crypto/merklearray/partial.rs: Siblings::get, PartialLayer::up", "src/crypto/merklearray/layer.rs: Layer::up"]}
{"id": "C02", "title": "Merkle array: an accepted proof binds position to element", "statement": "If Tree::verify accepts a root built by Tree::from_array, any map of positions to leaf hashes and any proof bytes whatsoever, then every position in the map is in range and carries the hash of exactly the array element at that position - or the run exhibits two different byte strings, both actually hashed while building the tree or while verifying, with equal hash (or one hashing to the all-zero string). Leaf hashes are assumed to be hashes of data that does not start with the interior-node prefix.", "quantifier": "all arrays, all claimed element maps, all proofs (adversarial), every hash function", "why_tests_cant": "The adversary chooses the proof; no finite set of forged proofs shows that none is accepted.", "anchors": ["src/crypto/merklearray/merkle.rs: Tree::from_array, Tree::root, Tree::verify", "src/crypto/merklearray/partial.rs: PartialLayer::up", "src/crypto/merklearray/layer.rs: impl Hashable for Pair"]}
{"id": "C03", "title": "Merkle array: proving an out-of-range position fails", "statement": "Tree::prove returns an error, and never panics, as soon as any requested position is at or beyond the number of array elements, whatever the other positions are.", "quantifier": "all arrays including the empty one, all position lists containing an out-of-range entry", "why_tests_cant": "Positions and array sizes are unbounded; tests try only the first position past the end.", "anchors": ["src/crypto/merklearray/merkle.rs: Tree::prove"]}
{"id": "C04", "title": "Merkle array: proofs do not depend on order or repetition of the requested positions", "statement": "Two position lists that contain the same set of positions yield the same result of Tree::prove (same proof or both errors).", "quantifier": "all arrays, all pairs of position lists with equal underlying sets", "why_tests_cant": "The space of orderings and repetitions is exponential.", "anchors": ["src/crypto/merklearray/merkle.rs: Tree::prove"]}
{"id": "C05", "title": "Merkle array: the root commits to the array", "statement": "If two arrays of the same length have the same Tree::root then they have the same element hashes position by position, or two different byte strings hashed while building the two trees collide. For arrays of different length the same holds when in addition element hashes are domain separated from interior nodes, up to an explicit zero-hash preimage.", "quantifier": "all pairs of arrays, every hash function", "why_tests_cant": "Injectivity of a commitment is a statement about all pairs of inputs.", "anchors": ["src/crypto/merklearray/merkle.rs: Tree::from_array, Tree::root", "src/crypto/merklearray/layer.rs: Layer::up"]}
{"id": "C06", "title": "Merkle array: verify always gives a verdict", "statement": "Tree::verify returns Ok or Err for every root, every element map and every proof: it performs at most 65 level computations and never indexes out of bounds.", "quantifier": "all roots, maps and proofs", "why_tests_cant": "Non-termination and panics on adversarial proofs cannot be excluded by samples.", "anchors": ["src/crypto/merklearray/merkle.rs: Tree::verify", "src/crypto/merklearray/partial.rs: PartialLayer::up"]}
{"id": "C07", "title": "Merkle trie behaves as a set", "statement": "Starting from an empty trie, after any sequence of add, delete and root_hash calls with keys of one common length, add returns true exactly when the key was not a member and delete returns true exactly when it was, where membership is determined by the preceding successful calls as for a mathematical set.", "quantifier": "all operation sequences over keys of one length, any starting from the empty trie on in-memory storage", "why_tests_cant": "The structural rewriting (splitting, collapsing, id reuse) depends on the whole history.", "anchors": ["src/crypto/merkletrie/trie.rs: Trie::add, Trie::delete", "src/crypto/merkletrie/node.rs: Node::find, Node::add, Node::remove", "src/crypto/merkletrie/cache.rs: MerkleTrieCache"]}
{"id": "C08", "title": "Merkle trie: the root hash depends only on the set of members", "statement": "Two histories of add, delete and root_hash calls (same key length) that end with the same set of members give the same root_hash; in particular intermediate root_hash calls, re-adding and deleting, and the order of insertions do not matter. The root of the empty set is the all-zero hash.", "quantifier": "all pairs of operation histories with the same final member set", "why_tests_cant": "Quantifies over pairs of histories; incremental dirty-flag caching is exactly what could break it.", "anchors": ["src/crypto/merkletrie/trie.rs: Trie::root_hash, Trie::add, Trie::delete", "src/crypto/merkletrie/node.rs: Node::calculate_hash, Node::add, Node::remove"]}
{"id": "C09", "title": "Merkle trie: the root hash commits to the set", "statement": "If two tries over keys of the same length (1 to 255 bytes) have equal root hashes then they have the same members, or two different byte strings hashed while computing the two roots collide, or one of them hashes to the all-zero string.", "quantifier": "all pairs of member sets reachable by histories, every hash function", "why_tests_cant": "A statement about all pairs of sets.", "anchors": ["src/crypto/merkletrie/trie.rs: Trie::root_hash", "src/crypto/merkletrie/node.rs: Node::calculate_hash"]}
{"id": "C10", "title": "Merkle trie: storage holds exactly the live nodes", "statement": "After any history the storage backend contains exactly the nodes reachable from the root, each under one identifier: removed or replaced nodes do not remain, and emptying the trie empties the storage.", "quantifier": "all operation histories", "why_tests_cant": "A leak shows up only after particular sequences of splits and collapses.", "anchors": ["src/crypto/merkletrie/trie.rs: Trie::add, Trie::delete", "src/crypto/merkletrie/node.rs: Node::add, Node::remove", "src/crypto/merkletrie/cache.rs: MerkleTrieCache::delete_node, set_node"]}
{"id": "C11", "title": "Merkle trie: no internal failure on equal-length keys", "statement": "For keys of one common length no call of add, delete or root_hash panics or returns an error, at any point of any history of fewer than 2^64 node allocations.", "quantifier": "all operation histories over keys of one length", "why_tests_cant": "Panics (slice indexing, unwrap of absent children, missing nodes) would depend on the whole history.", "anchors": ["src/crypto/merkletrie/trie.rs: Trie", "src/crypto/merkletrie/node.rs: Node", "src/crypto/merkletrie/cache.rs: MerkleTrieCache::get_node"]}
{"id": "C12", "title": "Merkle trie: keys of another length are rejected", "statement": "When the trie is non-empty, add and delete of a key whose length differs from that of the members return an element-length error and leave the members unchanged.", "quantifier": "all tries and all keys of a different length", "why_tests_cant": "Needs every trie shape and every key; one bad shape suffices to corrupt the trie.", "anchors": ["src/crypto/merkletrie/trie.rs: Trie::add, Trie::delete, TrieError::ElementLengthMismatch"]}
{"id": "C13", "title": "Merkle trie: the stored form of a node loses nothing", "statement": "Deserialising the serialised form of any node returns a node with the same hash bytes, the same kind (leaf or interior) and the same children.", "quantifier": "all nodes: any hash bytes, any assignment of children to the 256 slots, any 64-bit identifiers", "why_tests_cant": "Variable-length integer boundaries and 2^256 child patterns cannot be enumerated.", "anchors": ["src/crypto/merkletrie/node.rs: Node::serialize, Node::deserialize"]}
{"id": "C14", "title": "Bit set behaves as a set of bytes values", "statement": "After any sequence of set and clear calls, bit i is reported as set exactly when the last call that touched i was a set; indices of 256 and above are rejected by a panic and nothing else is.", "quantifier": "all operation sequences, all indices", "why_tests_cant": "Cross-talk between word boundaries depends on index pairs and histories.", "anchors": ["src/crypto/merkletrie/bitset.rs: Bitset"]}
{"id": "C15", "title": "Mnemonic round trip", "statement": "Converting any 32-byte key to its mnemonic and back returns the same key, and every produced mnemonic has exactly 25 words of the word list.", "quantifier": "all 2^256 keys, every checksum function with values in the word-list range", "why_tests_cant": "The 8-to-11-bit regrouping has carries across every byte; 2^256 inputs.", "anchors": ["src/crypto/mnemonic.rs: key_to_mnemonic, mnemonic_to_key, to_base11, to_base8, checksum"]}
{"id": "C16", "title": "Mnemonic: exactly the produced mnemonics are accepted", "statement": "If a text is accepted as a mnemonic for key k, then splitting it into words gives the very words that key_to_mnemonic produces for k: no second word sequence decodes to the same key and no sequence with padding bits or a wrong checksum word is accepted; every other text gives an error rather than a panic.", "quantifier": "all texts", "why_tests_cant": "Requires showing the rejection of all other 2048^25 sequences.", "anchors": ["src/crypto/mnemonic.rs: mnemonic_to_key, phrase_to_key, to_base8"]}
{"id": "C17", "title": "Multisig verification is exactly m-of-n", "statement": "A multisignature whose first slot is not the blank slot (default key, no signature) is accepted for a message and address if and only if: version is 1, 1 <= threshold <= number of keys <= 255, the address is the hash of version, threshold and the key list, at least threshold slots carry a signature, and every signature present verifies under the key of its slot.", "quantifier": "all messages, addresses, multisignatures, every signature scheme", "why_tests_cant": "All combinations of present, absent, valid and invalid slot signatures.", "anchors": ["src/crypto/multisig.rs: MultisigSignature::verify, batch_verify", "src/crypto/batch_verifier.rs: BatchVerifier"]}
{"id": "C18", "title": "Multisig completeness", "statement": "If at least threshold of the listed keys sign a message individually with the sign call and the partial multisignatures are assembled, the result verifies for that message and the multisig address.", "quantifier": "all lists of up to 255 keys that do not start with the default key, thresholds, signer subsets of size at least 2 and at least the threshold, messages", "why_tests_cant": "All signer subsets in all orders.", "anchors": ["src/crypto/multisig.rs: MultisigAddr::sign, MultisigSignature::assemble, MultisigSignature::verify"]}
{"id": "C19", "title": "Multisig merging keeps every signature and invents none", "statement": "Merging two multisignatures for the same version, threshold and keys returns a multisignature whose signed slots are exactly the union of the signed slots; a slot signed in both inputs with different signatures is an error; mismatching preimages are an error.", "quantifier": "all pairs of multisignatures", "why_tests_cant": "All combinations of slot states.", "anchors": ["src/crypto/multisig.rs: merge, add_sigs, matches"]}
{"id": "C20", "title": "Multisig addresses bind version, threshold and keys", "statement": "If two (version, threshold, key list) triples with byte-sized version and threshold have the same multisig address then they are equal, or their two hashed encodings collide.", "quantifier": "all pairs of triples", "why_tests_cant": "Injectivity over all pairs.", "anchors": ["src/crypto/multisig.rs: from_pks"]}
{"id": "C21", "title": "Multisig threshold counts distinct signers", "statement": "A multisignature with threshold m is accepted only if at least m different public keys have signed.", "quantifier": "all accepted multisignatures", "why_tests_cant": "Needs all key lists including ones with repeated keys.", "anchors": ["src/crypto/multisig.rs: batch_verify, from_pks"]}
{"id": "C22", "title": "Batch verification agrees with individual verification", "statement": "A batch verifier accepts exactly when at least one signature was enqueued and each enqueued (key, message, signature) triple verifies individually; the order of enqueuing does not matter.", "quantifier": "all sequences of enqueued triples", "why_tests_cant": "All mixes of valid and invalid signatures.", "anchors": ["src/crypto/batch_verifier.rs: BatchVerifier::enque_sig, BatchVerifier::verify"]}
{"id": "C23", "title": "One-time signatures verify for every key in the generated range", "statement": "Freshly generated keys for batches [start, start+n) sign any message under any identifier whose batch is in range, and the signature verifies under the public verifier for exactly that identifier and message; after any deletions this continues to hold for every identifier that has not been deleted and whose offset lies in the expanded range.", "quantifier": "all start batches and counts, identifiers, messages, sequences of deletions, every signature scheme that is correct; batch numbers below 2^64-1 (deleting before the last one panics, or deletes nothing in a release build)", "why_tests_cant": "Depends on the history of deletions and on index arithmetic at batch boundaries.", "anchors": ["src/crypto/ots.rs: OTSSecrets::generate, OTSSecrets::sign, OTSSecrets::delete_before, OTS::verify"]}
{"id": "C24", "title": "One-time signatures: forward security", "statement": "Once keys before an identifier have been deleted, the secrets held contain no key able to sign any earlier identifier: signing any earlier identifier yields no valid signature, no matter which deletions follow, and no retained secret key has ever signed a batch certificate for or belongs to an earlier identifier.", "quantifier": "all histories of deletions and signing calls, all earlier identifiers; batch numbers below 2^64-1 (deleting before the last one panics, or deletes nothing in a release build)", "why_tests_cant": "Universally quantified over later histories; must hold at batch boundaries.", "anchors": ["src/crypto/ots.rs: delete_before, sign"]}
{"id": "C25", "title": "One-time signatures: snapshots carry the same signing power", "statement": "A snapshot taken at any time signs exactly the identifiers that the original signs at that moment and is unaffected by later deletions from the original.", "quantifier": "all histories before and after the snapshot", "why_tests_cant": "Aliasing and locking issues depend on history.", "anchors": ["src/crypto/ots.rs: snapshot"]}
{"id": "C26", "title": "One-time signatures: verification binds batch, offset and message", "statement": "A signature is accepted for (key, identifier, message) exactly when the master key signs the batch key for that batch, the batch key signs the offset key for that batch and offset, and the offset key signs the message; the three signed encodings for different (key,batch,offset) are different byte strings.", "quantifier": "all signatures, identifiers, messages", "why_tests_cant": "All tuples; encodings have variable length.", "anchors": ["src/crypto/ots.rs: OTS::verify, OTSSubkeyBatchID, OTSSubkeyOffsetID"]}
{"id": "C27", "title": "VRF completeness", "statement": "For every key pair and every message, the proof produced by prove is accepted by verify under the matching public key and yields the output the prover can compute from the proof.", "quantifier": "all secret keys, all messages, every prime-order group with a hash to the group", "why_tests_cant": "Group algebra over all scalars.", "anchors": ["src/crypto/vrf.rs: VrfKeypair::prove_bytes, VrfPublicKey::verify_bytes, VrfProof::to_output"]}
{"id": "C28", "title": "VRF outputs are unique", "statement": "Two accepted proofs for the same public key and message have the same output, unless a verifier challenge value coincided by chance with the unique value for which a false proof passes.", "quantifier": "all public keys, messages and pairs of accepted proofs", "why_tests_cant": "Adversarial proofs.", "anchors": ["src/crypto/vrf.rs: VrfPublicKey::verify_bytes, VrfProof::to_output"]}
{"id": "C29", "title": "VRF proof encoding is canonical", "statement": "Decoding rejects or returns components whose re-encoding is the very same 80 bytes, so a proof has only one byte form; encoding then decoding returns the same components.", "quantifier": "all 80-byte strings", "why_tests_cant": "2^640 strings.", "anchors": ["src/crypto/vrf.rs: VrfProof::decode, VrfKeypair::prove_bytes"]}
{"id": "C30", "title": "Hash domains are disjoint", "statement": "Hash inputs of values of different kinds are never equal: no domain prefix used for hashing is a prefix of another one, so prefix||data determines both.", "quantifier": "all pairs of hashed values of different kinds", "why_tests_cant": "Any data may follow the prefix.", "anchors": ["src/protocol/hash.rs: HashID constants", "src/crypto/hashable.rs: Hashable::hash_rep"]}
{"id": "C31", "title": "Network tags are distinct, fixed size and decode uniquely", "statement": "All message tags have two bytes and differ, so the first two bytes of a message determine its kind.", "quantifier": "all messages and tags", "why_tests_cant": "Any payload may follow.", "anchors": ["src/protocol/tags.rs: Tag constants"]}
{"id": "C32", "title": "Address text round trip", "statement": "Parsing the text form of any 32-byte address returns the same address; the text form always has 58 characters of the base-32 alphabet.", "quantifier": "all 2^256 addresses, every checksum hash", "why_tests_cant": "2^256 inputs.", "anchors": ["src/data/basics/address.rs: Address Display, FromStr, checksum"]}
{"id": "C33", "title": "Address text form is unique", "statement": "A text is accepted as an address exactly when it is the text form of that address: wrong checksums, other alphabets, padding, case changes and altered trailing bits are all rejected.", "quantifier": "all strings", "why_tests_cant": "Must reject every other string.", "anchors": ["src/data/basics/address.rs: FromStr for Address"]}
{"id": "C34", "title": "Address parsing never panics", "statement": "Parsing returns an address or an error for every input text.", "quantifier": "all strings", "why_tests_cant": "A panic is triggered only by crafted lengths with matching checksums.", "anchors": ["src/data/basics/address.rs: FromStr for Address"]}
{"id": "C35", "title": "Hash text form round trip and uniqueness", "statement": "A 32-byte hash is recovered from its base-32 text form, and a text is accepted only if it decodes to exactly 32 bytes.", "quantifier": "all hashes and all strings", "why_tests_cant": "2^256 inputs.", "anchors": ["src/crypto/hashable.rs: CryptoHash Display, TryFrom<&str>"]}
{"id": "C36", "title": "Round and amount arithmetic", "statement": "Capped subtraction of rounds never goes below zero and is exact otherwise; rounding up to a multiple returns the least multiple not below the round whenever round plus multiple stays below 2^64; the one-time-key identifier of a round is the unique (batch, offset) with batch*dilution+offset = round and offset < dilution, and is monotone in the round; the number of reward units of an amount is the whole number of units it contains.", "quantifier": "all 64-bit rounds and dilutions", "why_tests_cant": "2^128 inputs with overflow boundaries.", "anchors": ["src/data/basics/units.rs: Round::sub_capped, round_up_to_multiple_of, ots_id, MicroAlgos::reward_units"]}
{"id": "C37", "title": "Applying rewards credits exactly the earned amount", "statement": "Bringing an account up to a rewards level adds whole reward units held times the level increase to its balance, sets its reward base to the level and adds the same amount (modulo 2^64) to its lifetime counter; non-participating accounts are unchanged; doing it twice at the same level changes nothing further; the call panics or wraps only in the stated overflow and level-regression cases.", "quantifier": "all accounts, parameters and levels, both overflow behaviours of the build", "why_tests_cant": "64-bit inputs with overflow boundaries.", "anchors": ["src/data/basics/user_balance.rs: with_updated_rewards, money, pending_rewards"]}
{"id": "C38", "title": "Minimum balance grows with use and saturates", "statement": "The minimum balance equals the base amount plus a charge per asset, created application, opted-in application, schema entry and extra page, capped at the largest 64-bit value; it never decreases when any of these counts grows.", "quantifier": "all accounts and parameters", "why_tests_cant": "Saturation at every step makes the sum order-sensitive in principle.", "anchors": ["src/data/basics/user_balance.rs: AccountData::min_balance", "src/data/basics/teal.rs: StateSchema::min_balance"]}
{"id": "C39", "title": "Normalized online balance", "statement": "The normalized balance of an online account is floor(balance * unit / (unit + base)) for every balance, without failing, and zero for accounts that are not online.", "quantifier": "all accounts", "why_tests_cant": "Overflow occurs only for large balances.", "anchors": ["src/data/basics/user_balance.rs: normalized_online_balance"]}
{"id": "C40", "title": "Account status text", "statement": "Parsing the displayed status returns the status and no other text is accepted.", "quantifier": "all strings", "why_tests_cant": "All strings must be rejected except three.", "anchors": ["src/data/basics/user_balance.rs: Status Display, TryFrom<&str>"]}
{"id": "C41", "title": "Transaction liveness check", "statement": "A transaction header is alive in a block context exactly when the round lies in [first_valid, last_valid], the genesis identifier is empty or equal to the chain's, and the genesis hash either equals the chain's when hashes are supported (mandatory when required) or is empty.", "quantifier": "all headers, rounds, protocol parameters and genesis values", "why_tests_cant": "All combinations of boundaries and flags.", "anchors": ["src/data/transactions/transaction.rs: Header::alive"]}
{"id": "C42", "title": "Well-formedness accepts exactly the documented transactions", "statement": "is_well_formed returns Ok exactly for the transactions satisfying a declarative list of conditions per transaction type under the protocol parameters, and never panics outside listed overflow cases and the rewards-pool sender.", "quantifier": "all transactions, special addresses and protocol parameters", "why_tests_cant": "About forty interacting conditions over unbounded fields.", "anchors": ["src/data/transactions/transaction.rs: Transaction::is_well_formed"]}
{"id": "C43", "title": "A transaction paying exactly the minimum fee is acceptable", "statement": "Outside fee pooling, a non-compact-cert transaction is rejected for its fee exactly when its fee is below the minimum transaction fee.", "quantifier": "all transactions and parameters", "why_tests_cant": "Boundary value for every parameter set.", "anchors": ["src/data/transactions/transaction.rs: Transaction::is_well_formed"]}
{"id": "C44", "title": "Signing and authorizer", "statement": "The authorizer of a freshly signed transaction is the address of the signing key, the auth address is recorded exactly when that differs from the sender, and the signature verifies over the transaction's hash input.", "quantifier": "all transactions and key pairs", "why_tests_cant": "All senders and keys.", "anchors": ["src/data/transactions/transaction.rs: Transaction::sign", "src/data/transactions/signed_tx.rs: SignedTx::authorizer"]}
{"id": "C45", "title": "Fee pooling covers the group", "statement": "fee_credit returns the excess of the group's fees over the minimum fee times the number of fee-bearing (non compact-cert) transactions, and an error exactly when the fees do not cover it.", "quantifier": "all groups, all fees and minimum fees", "why_tests_cant": "Groups of any size, overflow in sums.", "anchors": ["src/data/transactions/signed_tx.rs: fee_credit"]}
{"id": "C46", "title": "Every address a transaction touches is reported", "statement": "relevant_addrs lists the sender, and for payments the receiver and any close address, for asset transfers the receiver, close address and asset sender when set, and contains nothing else but the two special addresses where documented.", "quantifier": "all transactions", "why_tests_cant": "All variants and optional fields.", "anchors": ["src/data/transactions/transaction.rs: relevant_addrs"]}
{"id": "C47", "title": "In-block transaction encoding round trip", "statement": "Encoding a signed transaction for a block and decoding it under the same header returns the same signed transaction and apply data, whenever its genesis fields are those allowed for that header; otherwise encoding returns an error.", "quantifier": "all headers, transactions, apply data and protocol parameters", "why_tests_cant": "All flag combinations.", "anchors": ["src/data/bookkeeping/block.rs: encode_signed_tx, decode_signed_tx"]}
{"id": "C48", "title": "Group splitting loses nothing", "statement": "Splitting a flat list of transactions into groups and flattening gives back the list; each group is non-empty, either a single ungrouped transaction or a run of consecutive transactions with one common non-zero group id, and runs are maximal. Wrapping transactions with empty results keeps them, their order and their groups.", "quantifier": "all transaction lists", "why_tests_cant": "All group patterns.", "anchors": ["src/data/bookkeeping/block.rs: signed_txs_to_group, signed_tx_groups_flatten, decode_payset_groups", "src/data/transactions/signed_tx.rs: wrap_signed_txs_with_ad"]}
{"id": "C49", "title": "Rewards are conserved", "statement": "When the rewards level advances by one round, the level increase times the total reward units plus the new residue equals the reward rate in force plus the old residue, and the residue stays below the number of units; with no units nothing changes.", "quantifier": "all states, rates, residues and unit totals within 64-bit overflow limits; any number of consecutive rounds", "why_tests_cant": "Conservation over every history of rounds.", "anchors": ["src/data/bookkeeping/block.rs: RewardsState::next_state"]}
{"id": "C50", "title": "The reward rate never promises more than the incentive pool can pay", "statement": "At a recalculation round the new rate times the refresh interval is at most the pool balance minus the minimum balance (and, where the protocol says so, minus the pending residue).", "quantifier": "all states and parameters", "why_tests_cant": "All balances and residues.", "anchors": ["src/data/bookkeeping/block.rs: RewardsState::next_state"]}
{"id": "C51", "title": "Protocol upgrades happen only by vote", "statement": "Over any sequence of upgrade votes, the current protocol changes only to a protocol that was proposed with a delay in the allowed range, gathered at least the threshold of approvals before its vote deadline and only at the announced switch round; an unsuccessful proposal is cleared after its deadline; at most one proposal is pending.", "quantifier": "all vote sequences and parameter sets", "why_tests_cant": "Histories of votes over thousands of rounds.", "anchors": ["src/data/bookkeeping/block.rs: UpgradeState::apply_upgrade_vote"]}
{"id": "C52", "title": "A pending upgrade can be started", "statement": "On a chain with no pending proposal, a block may propose any protocol, and then approvals are accepted until the deadline.", "quantifier": "all upgrade states without pending proposal", "why_tests_cant": "Quantifies over states and following histories.", "anchors": ["src/data/bookkeeping/block.rs: UpgradeState::apply_upgrade_vote, BlockHeader::pre_check"]}
{"id": "C53", "title": "Blocks made by the node pass its own header check", "statement": "The header produced for the next block from any valid previous header passes the pre-check against the same previous header.", "quantifier": "all previous headers, votes and clock values", "why_tests_cant": "All histories and clock values.", "anchors": ["src/data/bookkeeping/block.rs: Block::new, BlockHeader::pre_check"]}
{"id": "C54", "title": "Block timestamps advance sensibly", "statement": "A produced block's timestamp is not before its predecessor's and at most the maximum increment after it (or the clock value for a predecessor without timestamp), and the pre-check rejects anything else.", "quantifier": "all clock values and predecessor timestamps", "why_tests_cant": "64-bit signed arithmetic boundaries.", "anchors": ["src/data/bookkeeping/block.rs: Block::new, BlockHeader::pre_check"]}
{"id": "C55", "title": "The header pre-check admits only proper successors", "statement": "A header passes the pre-check only if its round is one more than the previous, its branch is the hash of the previous header, its upgrade state follows from the previous state and its own vote, its protocol is supported and its timestamp and genesis fields are as required.", "quantifier": "all header pairs", "why_tests_cant": "All field combinations.", "anchors": ["src/data/bookkeeping/block.rs: BlockHeader::pre_check"]}
{"id": "C56", "title": "The header hash commits to the upgrade state", "statement": "Two headers with the same hash have the same upgrade state, or a collision is exhibited.", "quantifier": "all pairs of headers", "why_tests_cant": "All pairs.", "anchors": ["src/data/bookkeeping/block.rs: BlockHeader, impl Hashable for BlockHeader"]}
{"id": "C57", "title": "Payset commitment binds the transactions", "statement": "If two blocks with equal header transaction root both match their headers then they carry the same transactions in the same order, or a collision among the hashed strings is exhibited.", "quantifier": "all pairs of blocks", "why_tests_cant": "All pairs.", "anchors": ["src/data/bookkeeping/block.rs: payset_commit, contents_match_header", "src/data/transactions/payset.rs: Payset::commit"]}
{"id": "C58", "title": "Sortition weight is the binomial quantile", "statement": "Given a monotone cumulative distribution, the selected weight is the least number of sub-users whose cumulative probability reaches the hash ratio, capped by the money owned; it never exceeds the money and is monotone in the hash ratio.", "quantifier": "all stakes, probabilities and hash values", "why_tests_cant": "All 64-bit stakes and 256-bit hashes.", "anchors": ["src/data/committee/sortition.rs: select, sortition_binomial_cdf_walk"]}
{"id": "C59", "title": "Credential verification", "statement": "A credential is returned exactly when the VRF proof verifies and the selected weight is positive, and then carries that weight, at most the account's online stake; it panics only on the documented inconsistent stake totals.", "quantifier": "all credentials and memberships", "why_tests_cant": "All inputs.", "anchors": ["src/data/committee/credential.rs: UnauthenticatedCredential::verify"]}
{"id": "C60", "title": "A credential of weight w is ranked by the least of w hashes", "statement": "The priority of a credential with weight w is the smallest of the w hashes with counters 1 to w.", "quantifier": "all weights and hash values", "why_tests_cant": "All weights; off-by-one is visible only in the minimum.", "anchors": ["src/data/committee/credential.rs: Credential::lowest_output, lt"]}
{"id": "C61", "title": "The credential hash decorrelates accounts and outputs", "statement": "The credential hash depends on the VRF output: two credentials of the same member with different VRF outputs have different hash inputs.", "quantifier": "all outputs and members", "why_tests_cant": "All pairs.", "anchors": ["src/data/committee/credential.rs: HashableCredential"]}
{"id": "C62", "title": "Built-in protocol table is closed under upgrades", "statement": "Every protocol named as an approved upgrade in the built-in table is itself in the table, from every released protocol following upgrades ends in the current protocol without cycles, announced delays lie in the allowed window, and parameters satisfy the constraints the rest of the code relies on (non-zero reward unit, refresh interval, dilution, vote rounds; thresholds that can be reached; values that fit their types).", "quantifier": "all built-in protocols and all upgrade paths", "why_tests_cant": "The table is built by mutation across several hundred lines.", "anchors": ["src/config/consensus.rs: init_consensus_protocols"]}
{"id": "C63", "title": "Merging configured protocols", "statement": "Merging a configured table overrides exactly the configured versions, deletes exactly the versions configured with no approved upgrades together with all upgrades leading to them, does not depend on the iteration order of the configured table and never fails.", "quantifier": "all tables and all iteration orders of the hash maps", "why_tests_cant": "Hash map iteration order is nondeterministic.", "anchors": ["src/config/consensus.rs: ConsensusProtocols::merge"]}
{"id": "C64", "title": "Key file names", "statement": "The participation key file name of an account and interval is recognised as such, its account name and interval are recovered, and file names of different accounts or intervals differ; a root key file name is recognised as a root key file name.", "quantifier": "all account names and intervals", "why_tests_cant": "All strings.", "anchors": ["src/config/keyfile.rs: part_key_filename, is_part_key_filename, account_name_from_part_key_filename, is_root_key_filename"]}
{"id": "C65", "title": "Application-call references resolve consistently", "statement": "Index 0 denotes the sender (or the called application) and index i the i-th foreign entry; resolving the index found for an address or application returns that address or application, and anything not present is an error.", "quantifier": "all application calls and addresses", "why_tests_cant": "All reference lists.", "anchors": ["src/data/transactions/application.rs: address_by_index, index_by_address, app_id_by_index, index_by_app_id"]}
{"id": "C66", "title": "State schema arithmetic", "statement": "Adding and subtracting schemas never wraps: addition saturates, subtraction stops at zero, and removing what was just added restores the original when nothing saturated; the schema of a key-value store counts its integer and byte entries.", "quantifier": "all schemas and stores", "why_tests_cant": "64-bit boundaries, stores of any size.", "anchors": ["src/data/basics/teal.rs: StateSchema, TealKeyValue::to_state_schema"]}
{"id": "C67", "title": "State deltas", "statement": "A stored value written as a delta and read back is the same value, a deletion reads back as no value, and a delta is valid exactly when it is empty or the protocol allows keys at all and every entry is within the protocol's limits on key length, and for byte values on value length and the sum of both.", "quantifier": "all values and deltas", "why_tests_cant": "All sizes.", "anchors": ["src/data/basics/teal.rs: TealValue::to_value_delta, ValueDelta::to_teal_value, StateDelta::is_valid"]}
{"id": "C68", "title": "Participation keys cover their validity interval", "statement": "Generated participation keys can sign for the one-time identifier of every round in [first, last], and overlap queries answer exactly whether the two intervals intersect.", "quantifier": "all intervals and dilutions", "why_tests_cant": "All interval alignments to batch boundaries.", "anchors": ["src/data/account.rs: Participation, fill_db_with_participation_keys, overlaps_interval"]}
{"id": "C69", "title": "Account manager keeps a set of participations", "statement": "Adding a participation succeeds exactly when no participation with the same address, interval and keys is held; the live-key query answers exactly whether the interval of a held participation has a round in common with the queried range, and the key query returns exactly the held participations valid for a round; held participations are never lost, neither by additions nor by deleting old keys; the accounts counted as registered are those of the held participations, each once.", "quantifier": "all sequences of additions and key deletions, all queries", "why_tests_cant": "All histories.", "anchors": ["src/data/account_manager.rs: add_participation, keys, has_live_keys"]}
{"id": "C70", "title": "Persisting participation keys is all or nothing", "statement": "If the process stops at any point while a participation is being persisted, reading it back yields either the complete participation or none, and never fails.", "quantifier": "all crash points", "why_tests_cant": "Every crash point and write order.", "anchors": ["src/data/account.rs: Participation::persist, restore"]}
{"id": "C71", "title": "Genesis rewards", "statement": "The genesis block's reward rate times the refresh interval does not exceed the rewards pool's allocation, and identical genesis data give identical genesis blocks.", "quantifier": "all genesis allocations and protocols", "why_tests_cant": "All balances.", "anchors": ["src/data/bookkeeping/genesis.rs: Genesis::create_block"]}
{"id": "C72", "title": "Message-pack encoding is unambiguous for signed entities", "statement": "Distinct one-time-signature key identifiers, transactions and in-block transactions have distinct encodings, so their hashes commit to them.", "quantifier": "all pairs of values", "why_tests_cant": "All pairs.", "anchors": ["src/protocol/codec.rs: encode", "src/crypto/ots.rs: OTSSubkeyBatchID, OTSSubkeyOffsetID", "src/data/transactions/signed_tx.rs: SignedTxInBlock"]}
{"id": "C73", "title": "Hashing an in-block transaction is deterministic", "statement": "Two equal in-block transactions (equal as values, their state deltas being equal maps) have equal encodings and so equal hashes, on every node.", "quantifier": "all pairs of equal in-block transactions, all orders in which their maps may be iterated", "why_tests_cant": "the iteration order of a hash map is randomised per process, and a test runs in one process with few entries", "anchors": ["src/data/transactions/teal.rs: EvalDelta", "src/data/basics/teal.rs: StateDelta", "src/data/transactions/signed_tx.rs: impl Hashable for SignedTxInBlock"]}
{"id": "C74", "title": "Deleting old keys keeps what is still needed", "statement": "After a block, deleting the old voting keys of the held participations leaves every account able to sign for the next round and for the next compact certificate round it has not signed yet, makes signing impossible for every earlier round, and never panics.", "quantifier": "all held participations, all block headers, all records of signed compact certificates", "why_tests_cant": "all alignments of rounds, batches and certificate intervals, and all histories of earlier deletions", "anchors": ["src/data/account_manager.rs: delete_old_keys", "src/data/account.rs: Participation::delete_old_keys"]}
{"id": "C75", "title": "Stored participations stay apart", "statement": "Whatever participations a node holds and however their keys are deleted, reading from the store returns one of the held participations, its address together with its own keys.", "quantifier": "all sets of participations and sequences of deletions", "why_tests_cant": "tests use one participation at a time", "anchors": ["src/data/account.rs: persist, delete_old_keys, restore, KEY_STORE", "src/data/account_manager.rs: delete_old_keys"]}
{"id": "C76", "title": "Generated root accounts work and can be restored", "statement": "Generating a root account returns an account, and restoring afterwards returns the same key pair.", "quantifier": "all random seeds", "why_tests_cant": "all seeds", "anchors": ["src/data/account.rs: Root::generate, Root::import, Root::restore"]}
{"id": "C77", "title": "Registration transactions are right and accepted", "statement": "The registration transaction of a participation has the participation's account as sender and carries exactly its voting key, selection key, interval and dilution; it passes the key registration checks when the participation starts no later than one round after the transaction expires, and is refused otherwise where coherency is checked.", "quantifier": "all participations, fees, validity ranges, leases and protocols", "why_tests_cant": "all parameter combinations", "anchors": ["src/data/account.rs: Participation::generate_registration_transaction", "src/data/transactions/keyreg.rs: check_coherency"]}
{"id": "C78", "title": "Generated keys can be recovered", "statement": "Generating a key prints the address of the key and a mnemonic of its seed, writes the seed to the chosen key file and the address to the chosen public key file, and changes no other file; exporting the key file, or importing the printed mnemonic elsewhere, prints the same address and mnemonic and yields the same key file.", "quantifier": "all seeds, hash functions, file systems and file names", "why_tests_cant": "all seeds and file systems", "anchors": ["src/bin/algokey/generate.rs: GenerateCmd::entrypoint, write_sk, write_pk", "src/bin/algokey/import.rs: ImportCmd::entrypoint", "src/bin/algokey/export.rs: ExportCmd::entrypoint", "src/bin/algokey/main.rs: main"]}
{"id": "C79", "title": "Importing takes exactly the mnemonics of keys", "statement": "Importing a text succeeds exactly if it is the mnemonic of a 32-byte seed; then the printed address belongs to that seed, the seed and the address are what is written to the two chosen files and no other file changes; otherwise no file changes at all.", "quantifier": "all texts and file systems", "why_tests_cant": "all texts", "anchors": ["src/bin/algokey/import.rs: ImportCmd::entrypoint", "src/crypto/mnemonic.rs: phrase_to_key"]}
{"id": "C80", "title": "Signing from the command line works", "statement": "Given a readable key file or a valid mnemonic, a readable transaction file and an existing output file, signing writes a signed transaction that verifies under the key.", "quantifier": "all keys, transactions and file systems", "why_tests_cant": "all keys and transactions", "anchors": ["src/bin/algokey/sign.rs: SignCmd::entrypoint, load_keyfile_or_mnemonic"]}
{"id": "C81", "title": "Only key files are exported", "statement": "Exporting succeeds exactly for files that hold a 32-byte seed.", "quantifier": "all file contents", "why_tests_cant": "all file contents", "anchors": ["src/bin/algokey/export.rs: ExportCmd::entrypoint, load_sk", "src/bin/algokey/main.rs: main"]}
{"id": "C82", "title": "The default dilution is the balanced one", "statement": "Without an explicit dilution, a participation is generated with a dilution equal to the square root of the length of its interval up to rounding, so that neither the number of key groups nor the size of a group exceeds the other by more than one or two.", "quantifier": "all intervals of 64-bit rounds", "why_tests_cant": "floating-point square root over all 64-bit numbers", "anchors": ["src/bin/algokey/part.rs: PartGenerateCmd::entrypoint", "src/data/account.rs: default_key_dilution"]}
{"id": "C83", "title": "Participation key files are kept apart", "statement": "A participation generated into a key file is shown for this key file, whatever is generated into other files later.", "quantifier": "all participations and file names", "why_tests_cant": "all histories", "anchors": ["src/bin/algokey/part.rs: PartGenerateCmd::entrypoint, PartInfoCmd::entrypoint"]}
{"id": "C84", "title": "Changing the parent changes the parent only", "statement": "After changing the parent of a stored participation, reading it back gives the new parent and otherwise the same participation; with an invalid address nothing changes.", "quantifier": "all stored participations and addresses", "why_tests_cant": "all participations", "anchors": ["src/bin/algokey/part.rs: PartReparentCmd::entrypoint", "src/data/account.rs: persist_new_parent"]}
{"id": "C85", "title": "Reversed intervals are refused with an error", "statement": "Generating a participation whose last round is before its first is refused with an error and stores nothing.", "quantifier": "all reversed intervals, dilutions and build modes", "why_tests_cant": "all intervals", "anchors": ["src/bin/algokey/part.rs: PartGenerateCmd::entrypoint", "src/data/account.rs: Participation::fill_db_with_participation_keys"]}
{"id": "C86", "title": "Saved settings are loaded back", "statement": "Settings saved to a directory are those loaded from it afterwards, up to the settings every relay has.", "quantifier": "all well-typed settings, directories and file systems", "why_tests_cant": "all values of ninety settings", "anchors": ["src/config/mod.rs: Local::save_to_disk, Local::load_from_disk"]}
{"id": "C87", "title": "Settings a file leaves out keep their defaults", "statement": "A settings file is accepted if the settings it gives have values of their types; the settings it does not give keep their default values, and unknown names are ignored.", "quantifier": "all settings files", "why_tests_cant": "all texts", "anchors": ["src/config/mod.rs: Local::load, Local::merge_from_file, Local::load_from_file"]}
{"id": "C88", "title": "Relays are archival", "statement": "Loaded settings with an address to listen on have block and ledger service and archival mode switched on; all other settings are as in the file, and without such an address all are.", "quantifier": "all settings files", "why_tests_cant": "all settings", "anchors": ["src/config/mod.rs: Local::merge_from_file"]}
{"id": "C89", "title": "Bootstrap names follow the pattern", "statement": "The bootstrap identifier for a network is the configured one with every placeholder replaced by the network's name, except that devnet and betanet have their own identifiers while the configured one is the default; the list of names consists of its nonempty parts between semicolons, in order.", "quantifier": "all configured identifiers and network names", "why_tests_cant": "all strings", "anchors": ["src/config/mod.rs: Local::dns_bootstrap, Local::dns_bootsrap_array"]}
{"id": "C90", "title": "Each optional check has its own bit", "statement": "Bits 0, 1 and 2 of the DNS security flags enforce verification of service records, relay addresses and the telemetry address; bits 0 and 1 of the catchup validation mode switch off the checks of certificates and payset hashes, bits 2 and 3 switch on those of signatures and apply data. No other bit matters.", "quantifier": "all values of the flags", "why_tests_cant": "all 2^32 values", "anchors": ["src/config/mod.rs: Local::dnssec_srv_enforced, dnssec_relay_addr_enforced, dnssec_telemetry_enforced, catchup_verify_certificate, catchup_verify_payset_hash, catchup_verify_transaction_signatures, catchup_verify_apply_data"]}
{"id": "C91", "title": "A saved phonebook is loaded back", "statement": "The entries saved as phonebook of a directory are the ones loaded from it afterwards.", "quantifier": "all lists of entries, directories and file systems", "why_tests_cant": "all lists", "anchors": ["src/config/mod.rs: save_phonebook_to_disk, load_phonebook"]}
{"id": "C92", "title": "Saved protocols are loaded back", "statement": "Protocols saved in a data directory are read back from it and merged into the table current at that time; without a file, that table stays as it is.", "quantifier": "all nonempty tables of protocols, current tables and file systems", "why_tests_cant": "all tables", "anchors": ["src/config/consensus.rs: ConsensusProtocols::save_configurable_consensus, preload_configurable_consensus_protocols, load_configurable_consensus_protocols"]}
{"id": "C93", "title": "Saving no protocols deletes the file", "statement": "Saving an empty table of protocols leaves no protocols file in the data directory, whether or not there was one.", "quantifier": "all file systems and directories", "why_tests_cant": "all file systems", "anchors": ["src/config/consensus.rs: ConsensusProtocols::save_configurable_consensus"]}
{"id": "C94", "title": "Only the prover's own proof is accepted", "statement": "For the root of an array, the only membership proof the verifier accepts for given elements and positions is the one the prover makes for these positions, unless two of the strings hashed collide or one hashes to zero. In particular nothing can be appended to a proof, and no elements have only the empty proof.", "quantifier": "all arrays, claims and proofs, of any length", "why_tests_cant": "all proofs", "anchors": ["src/crypto/merklearray/merkle.rs: Tree::verify, Tree::prove"]}
{"id": "C95", "title": "Transaction inclusion proofs", "statement": "If a membership proof for some transactions and positions is accepted against the transaction commitment of a block whose contents match its header, the block has exactly these transactions, signatures and effects at these positions, unless strings hashed collide; and for every set of positions of such a block the prover makes a proof that is accepted.", "quantifier": "all blocks with Merkle commitment, claims and proofs", "why_tests_cant": "all blocks and all forged proofs", "anchors": ["src/data/bookkeeping/tx_merkle.rs: TxMerkleArray, TxMerkleElem", "src/crypto/merklearray/merkle.rs: Tree::from_block, Tree::prove, Tree::verify", "src/data/bookkeeping/block.rs: Block::contents_match_header"]}
{"id": "C96", "title": "One tree per block", "statement": "The array of Merkle elements of a block lists the decoded transactions with their in-block forms in order, or fails as decoding the payset does; the tree made directly from the block is the tree over the leaves of these elements.", "quantifier": "all blocks", "why_tests_cant": "all blocks", "anchors": ["src/data/bookkeeping/tx_merkle.rs: TxMerkleArray::from_block, TxMerkleElem::to_be_hashed", "src/crypto/merklearray/merkle.rs: Tree::from_block"]}
{"id": "C97", "title": "Signed groups have their own identifiers", "statement": "Two groups of signed transactions have the same identifier only if they are the same transactions with the same signatures in the same order, unless strings hashed collide; and what is hashed for a signed group is never what is hashed for a group of transaction hashes, although the prefix is the same.", "quantifier": "all groups", "why_tests_cant": "all groups", "anchors": ["src/data/signed_tx_group.rs: SignedTxVec::id", "src/data/transactions/transaction.rs: TxGroup"]}
{"id": "C98", "title": "Genesis identifiers tell networks apart", "statement": "Two genesis configurations whose network names have no dash have the same identifier only if network and schema are the same.", "quantifier": "all names", "why_tests_cant": "all strings", "anchors": ["src/data/bookkeeping/genesis.rs: Genesis::id"]}
{"id": "C99", "title": "The genesis hash commits to the genesis", "statement": "Two genesis configurations with one hash are the same, including every allocation and account state, unless strings hashed collide.", "quantifier": "all genesis configurations", "why_tests_cant": "all configurations", "anchors": ["src/data/bookkeeping/genesis.rs: Genesis::to_be_hashed"]}
{"id": "C100", "title": "The genesis hash is a function of the genesis", "statement": "Equal genesis configurations have equal hashes, whatever the order in which the maps of an account's assets and applications are iterated.", "quantifier": "all genesis configurations and iteration orders", "why_tests_cant": "orders are chosen at random per process", "anchors": ["src/data/bookkeeping/genesis.rs: Genesis::to_be_hashed", "src/data/basics/user_balance.rs: AccountData"]}
{"id": "C101", "title": "Balance record hashes commit to the record", "statement": "Two balance records with one hash have the same address and account data, unless strings hashed collide.", "quantifier": "all balance records", "why_tests_cant": "all records", "anchors": ["src/data/basics/user_balance.rs: BalanceRecord::to_be_hashed"]}
{"id": "C102", "title": "Transactions can be read back", "statement": "Decoding the encoding of a transaction, whatever bytes follow, gives the transaction.", "quantifier": "all transactions and trailing bytes", "why_tests_cant": "all transactions", "anchors": ["src/protocol/codec.rs: encode, decode", "src/data/transactions/transaction.rs: Transaction, Header, TxFields", "src/data/basics/address.rs: Address"]}
{"id": "C103", "title": "Signed transactions can be read back", "statement": "Decoding the encoding of a signed transaction gives the signed transaction.", "quantifier": "all signed transactions, signatures and trailing bytes", "why_tests_cant": "all signed transactions", "anchors": ["src/protocol/codec.rs: encode, decode", "src/data/transactions/signed_tx.rs: SignedTx"]}
{"id": "C104", "title": "Assembling multisignatures", "statement": "Assembling succeeds exactly for at least two multisignatures over the same version, threshold and keys; the result is over these, carries in each slot the last signature given there and nothing else, and assembling never panics.", "quantifier": "all lists of multisignatures", "why_tests_cant": "all lists and signature patterns", "anchors": ["src/crypto/multisig.rs: MultisigSignature::assemble"]}
{"id": "C105", "title": "A VRF proof is for one key and one message", "statement": "A proof accepted under two keys or for two messages means that two strings hashed go to one curve point or have one challenge; proofs with one output have the same point up to the cofactor, unless the digests collide.", "quantifier": "all curves meeting the group laws, keys, proofs and messages", "why_tests_cant": "all forged proofs", "anchors": ["src/crypto/vrf.rs: VrfPublicKey::verify_bytes, hash_to_curve, hash_points"]}
{"id": "C106", "title": "Short form of hashes", "statement": "The short form of a hash is the 64-bit number whose little-endian bytes are its first eight bytes.", "quantifier": "all hashes", "why_tests_cant": "all hashes", "anchors": ["src/crypto/hashable.rs: CryptoHash::trim_to_u64"]}
{"id": "C107", "title": "The size estimate is right", "statement": "The estimated size of a transaction is the size of its encoding with a plain signature.", "quantifier": "all transactions", "why_tests_cant": "all transactions", "anchors": ["src/data/transactions/transaction.rs: Transaction::estimate_encoded_size"]}
{"id": "C108", "title": "Receivers find their transactions", "statement": "If a transaction has a receiver then looking for transactions of that account finds it; a transaction with a nonzero amount has a receiver.", "quantifier": "all transactions, addresses and special addresses", "why_tests_cant": "all transactions", "anchors": ["src/data/transactions/transaction.rs: get_receiver_address, match_address, relevant_addrs, tx_amount"]}
{"id": "C109", "title": "Protocol names differ", "statement": "Two protocol versions are shown by the same name only if they are the same.", "quantifier": "all pairs of versions", "why_tests_cant": "pairs of versions", "anchors": ["src/protocol/consensus.rs: ConsensusVersion, Display"]}
{"id": "C110", "title": "Equal credentials tie", "statement": "Of two credentials that compare as equal neither ranks below the other.", "quantifier": "all credentials and hash functions", "why_tests_cant": "all credentials", "anchors": ["src/data/committee/credential.rs: Credential::lt, PartialEq for Credential"]}
{"id": "C111", "title": "Only online accounts vote", "statement": "A credential is accepted only from an account that is online, and its weight is positive and at most the account's balance.", "quantifier": "all memberships, proofs, distributions, curves and hash functions", "why_tests_cant": "all memberships and proofs", "anchors": ["src/data/committee/credential.rs: UnauthenticatedCredential::verify", "src/data/basics/user_balance.rs: AccountData::voting_stake"]}
{"id": "C112", "title": "Every round has a one-time key", "statement": "The key dilution of an account is its own unless it is zero, then the protocol's; under every built-in protocol each round has a one-time key identifier for every account.", "quantifier": "all accounts, rounds and built-in protocols", "why_tests_cant": "all rounds and accounts", "anchors": ["src/data/basics/user_balance.rs: AccountData::key_dilution", "src/data/basics/units.rs: Round::ots_id", "src/config/consensus.rs: ConsensusParams"]}
{"id": "C113", "title": "Application addresses are distinct", "statement": "Two applications have different addresses, and no application address is a multisig address or the hash of an object of another kind, unless two named strings collide under the hash.", "quantifier": "all pairs of 64-bit application indices, all other hash domains and contents, all hash functions", "why_tests_cant": "quantifies over all indices and hash functions", "anchors": ["src/data/basics/user_balance.rs: AppIndex::address, Hashable for AppIndex", "src/protocol/hash.rs: APP_INDEX"]}
{"id": "C114", "title": "Both trie storages remember what was stored", "statement": "For every sequence of store and load calls each load answers the content last stored for that id (none after storing an empty content), the database-backed and the in-memory storage alike; the reported size is the total of the contents held.", "quantifier": "all sequences of calls with 64-bit ids", "why_tests_cant": "unbounded histories and key encodings", "anchors": ["src/crypto/merkletrie/storage.rs: Storage for sled::Tree, Storage for InMemoryStorage"]}
{"id": "C115", "title": "Participation identities hash as they compare", "statement": "Two participation identities are equal exactly when they feed the same data to a hasher, so they can be used as keys of a hash table.", "quantifier": "all pairs of identities with 32-byte address and keys and 64-bit rounds", "why_tests_cant": "all pairs", "anchors": ["src/data/account_manager.rs: Hash for ParticipationKeyIdentity, PartialEq for ParticipationKeyIdentity"]}
{"id": "C116", "title": "Application state values are shown unambiguously", "statement": "Two different application state values have different texts.", "quantifier": "all pairs of state values", "why_tests_cant": "all pairs of byte strings and numbers", "anchors": ["src/data/basics/teal.rs: Display for TealValue"]}
{"id": "C117", "title": "Size of a logic signature", "statement": "The length of a logic signature is the number of bytes supplied as program and arguments, and it is reported empty exactly when that is zero.", "quantifier": "all logic signatures", "why_tests_cant": "programs and argument lists of any size", "anchors": ["src/data/transactions/logicsig.rs: LogicSig::len, LogicSig::is_empty"]}
{"id": "C118", "title": "Block headers can be read back", "statement": "Decoding the encoding of a block header gives that header.", "quantifier": "all block headers, bytes that follow, and both ways a reader can treat message-pack bytes", "why_tests_cant": "all headers", "anchors": ["src/data/bookkeeping/block.rs: BlockHeader, RewardsState, UpgradeVote, CompactCertState", "src/protocol/codec.rs: encode, decode"]}
{"id": "C119", "title": "A genesis file can be loaded", "statement": "A file holding the encoding of a genesis loads as that genesis, with every account, asset and application; a file that is missing or cannot be decoded gives an error.", "quantifier": "all genesis values and files, both ways a reader can treat message-pack bytes", "why_tests_cant": "all genesis values with any accounts", "anchors": ["src/data/bookkeeping/genesis.rs: Genesis::load_from_file, Genesis, GenesisAllocation", "src/data/basics/user_balance.rs: AccountData, AppLocalState, AppParams, AssetParams, AssetHolding", "src/data/basics/teal.rs: TealKeyValue"]}
{"id": "C120", "title": "The last header's hash commits to the whole chain", "statement": "Two chains of blocks that start in the same round and with the same upgrade state, in which every header passes the check against the one before and every block matches its header, and which end with the same header hash, have the same headers, upgrade states included, and the same transactions (up to the genesis flags under the oldest protocols); otherwise two different strings with the same hash, or one with the zero hash, are among the strings hashed.", "quantifier": "all chains of any length, protocol tables and hash functions", "why_tests_cant": "all chains", "anchors": ["src/data/bookkeeping/block.rs: BlockHeader::pre_check, BlockHeader::hash, Block::contents_match_header, UpgradeState::apply_upgrade_vote"]}
{"id": "C121", "title": "Rounds, time and network along a chain", "statement": "In a chain in which every header passes the check against the one before, rounds are consecutive, the time never runs back and, once set, advances by at most the greatest increment per block, the genesis identifier is the same everywhere, and so is the genesis hash as long as the protocols in force have one.", "quantifier": "all chains of any length and protocol tables", "why_tests_cant": "all chains", "anchors": ["src/data/bookkeeping/block.rs: BlockHeader::pre_check"]}
{"id": "C122", "title": "On a chain the protocol changes only by vote", "statement": "In a chain in which every header passes the check against the one before, starting without a pending proposal, the protocol changes only to one that a block proposed, that enough blocks approved before its deadline, and in exactly the round announced.", "quantifier": "all chains of any length and protocol tables", "why_tests_cant": "all chains", "anchors": ["src/data/bookkeeping/block.rs: BlockHeader::pre_check, UpgradeState::apply_upgrade_vote"]}
{"id": "C123", "title": "Failures of the key store are reported", "statement": "Every call that writes participation keys to the key store (generating, persisting, changing the parent, deleting old keys) returns success exactly if all its writes and the final flush succeeded, and an error otherwise; after success everything is stored.", "quantifier": "all participations, stores and points of failure", "why_tests_cant": "every point of failure", "anchors": ["src/data/account.rs: Participation::persist, persist_new_parent, delete_old_keys, fill_db_with_participation_keys"]}
{"id": "C124", "title": "Reading accepts exactly the message-pack format", "statement": "Decoding a byte string succeeds exactly if the string begins with a form of a value in the message-pack format, whichever of the allowed forms, and gives that value; no string begins with two forms. Encoding writes a form of the value, and no form of the value is shorter. Whatever was decoded can be encoded and decoded again.", "quantifier": "all byte strings and all values", "why_tests_cant": "all markers, widths and nestings", "anchors": ["src/protocol/codec.rs: encode, decode"]}
{"id": "C125", "title": "What is restored is what the key store holds", "statement": "A participation restored from the key store has exactly the owner, first and last round and dilution that the store holds, and keys and signatures of the right sizes; it can be stored and restored again unchanged. A restored root is a key pair of 64 bytes with a valid public key; the root is reported missing exactly if it is, and restoring it never panics.", "quantifier": "all contents of the key store", "why_tests_cant": "all contents, also ones not written by the library", "anchors": ["src/data/account.rs: Participation::restore, Root::restore"]}
{"id": "C126", "title": "Decoding gives values of the right type, whatever the bytes", "statement": "A transaction, signed transaction, block header or genesis decoded from any byte string has numbers in their ranges, addresses and hashes of 32 bytes, strings that are UTF-8, keys and signatures that the library accepts, and at most one entry per key in its maps; a decoded block header carries the default upgrade state.", "quantifier": "all byte strings", "why_tests_cant": "all byte strings, also hostile ones", "anchors": ["src/protocol/codec.rs: decode", "src/data/transactions/transaction.rs: Transaction", "src/data/transactions/signed_tx.rs: SignedTx", "src/data/bookkeeping/block.rs: BlockHeader", "src/data/bookkeeping/genesis.rs: Genesis::load_from_file"]}
{"id": "C127", "title": "Decoding of transactions is canonical", "statement": "No two different byte strings of which each is one encoded value decode to the same transaction.", "quantifier": "all byte strings", "why_tests_cant": "all byte strings, also ones no encoder writes", "anchors": ["src/protocol/codec.rs: decode", "src/data/transactions/transaction.rs: Transaction, Header, TxFields"]}
{"id": "C128", "title": "The words of mnemonics are the lines of the word list file", "statement": "The program uses as words exactly the lines of the word list file, in their order, and refuses to start unless there are 2048 of them; no line is left out or changed beyond its line end.", "quantifier": "all contents of the word list file, and a missing file", "why_tests_cant": "all files, with any line ends, any bytes and any number of lines", "anchors": ["src/crypto/mnemonic.rs: load_mnemonic_file, WORDS"]}
{"id": "C129", "title": "Keys come back from their mnemonics with any word list", "statement": "Whatever word list file was accepted, every 32-byte key has a mnemonic of 25 words of it, no phrase makes the conversion panic, and the conversion of a phrase gives a key exactly if the phrase is the mnemonic of that key.", "quantifier": "all accepted word list files, all keys, all phrases, all hash functions of 32 bytes", "why_tests_cant": "all word lists, keys and phrases", "anchors": ["src/crypto/mnemonic.rs: load_mnemonic_file, key_to_mnemonic, mnemonic_to_key, phrase_to_key"]}
{"id": "C130", "title": "Bytes are taken as text exactly if they are UTF-8", "statement": "Wherever bytes are decoded into a string, they are accepted exactly when they are characters in the form of RFC 3629 one after the other: shortest forms, no surrogates, nothing above 0x10ffff; the characters are determined by the bytes.", "quantifier": "all byte strings", "why_tests_cant": "all byte strings", "anchors": ["src/crypto/mnemonic.rs: load_mnemonic_file", "src/config/mod.rs: load_from_file", "src/protocol/codec.rs: decode"]}
{"id": "C131", "title": "Encoded lengths", "statement": "Equal in-block transactions report the same encoded length even when their maps iterate in different orders and their encodings differ. The reported length is the number of bytes needed to read the transaction: with so many the encoded value is read, with fewer nothing is, whatever bytes follow.", "quantifier": "all signed and in-block transactions, all map orders, all following bytes", "why_tests_cant": "all transactions and all map orders", "anchors": ["src/data/transactions/signed_tx.rs: SignedTx::get_encoded_length, SignedTxInBlock::get_encoded_length"]}
{"id": "C132", "title": "The folder for global configuration files", "statement": "Asking for the folder of global configuration files gives the one that was set last, or else .algorand in the home directory, which is then created; asked again without setting it, the answer is the same.", "quantifier": "all sequences of questions and overrides, all file systems and home directories", "why_tests_cant": "all sequences of calls and all states of the file system, also the second start of a program", "anchors": ["src/config/mod.rs: get_config_file_path, get_global_config_file_root, set_global_config_file_root, get_default_config_file_path"]}
{"id": "C133", "title": "Overriding the configuration folder is atomic", "statement": "Overriding the folder of global configuration files returns the one it replaces, so that setting it to that brings back the one before; also when several threads override it, the answers are those of some order of the calls.", "quantifier": "all sequences of calls, all interleavings of threads", "why_tests_cant": "all interleavings", "anchors": ["src/config/mod.rs: set_global_config_file_root, get_global_config_file_root, GLOBAL_CONFIG_FILE_ROOT"]}
{"id": "C134", "title": "Configuration files are JSON texts", "statement": "A settings file is accepted exactly if it is a JSON text of RFC 8259 in UTF-8 that gives every setting a value of its type, once; the settings are then those the text gives. White space, escapes in strings and the order of members do not matter, and a text has one meaning.", "quantifier": "all contents of the settings file, all folders and file systems", "why_tests_cant": "all byte strings: every spelling of numbers and strings, every white space, every nesting of ignored values", "anchors": ["src/config/mod.rs: Local, Local::load_from_disk, Local::load_from_file"]}
{"id": "C135", "title": "Loaded settings are values of their types", "statement": "Whatever the settings file contains, if it is accepted then every setting is a value of its type: integers in the range of their width, strings that are UTF-8, durations that do not overflow.", "quantifier": "all contents of the settings file", "why_tests_cant": "all files that are accepted", "anchors": ["src/config/mod.rs: Local, Local::load_from_disk, Local::load_from_file"]}
{"id": "C136", "title": "Protocol and phonebook files are JSON texts", "statement": "A file of configurable protocols is merged into the built-in ones exactly if it is a JSON text that gives complete protocols under names of versions, and is refused otherwise; a phonebook is refused unless it is the JSON text null.", "quantifier": "all contents of the two files, all current protocols", "why_tests_cant": "all byte strings", "anchors": ["src/config/consensus.rs: ConsensusProtocols::preload_configurable_consensus_protocols, ConsensusProtocols::merge", "src/config/mod.rs: load_phonebook"]}
{"id": "C137", "title": "Fields by place or by name", "statement": "A block header, a genesis file and stored participation keys read the same from an array of their fields in order and from a map of the fields by name, in any order and with other names among them. An array of another length and a map that lacks a field, has one twice or has a key that is not a name are refused.", "quantifier": "all encodings, all field values, all orders, all further entries", "why_tests_cant": "all permutations and all additional entries", "anchors": ["src/data/bookkeeping/block.rs: BlockHeader", "src/data/bookkeeping/genesis.rs: Genesis", "src/crypto/ots.rs: OTSSecrets", "src/crypto/vrf.rs: VrfKeypair", "src/protocol/codec.rs: decode"]}
{"id": "C138", "title": "Digests have one size", "statement": "Whatever is hashed, the digest has 32 bytes, is written with 52 letters and digits and reads back from them; an address derived by hashing is written with 58. The digest inside the verifiable random function has 64 bytes. A message is hashed in whole blocks of 128 bytes, and the blocks determine the message if it has less than 2^128 bits.", "quantifier": "all byte strings of all lengths", "why_tests_cant": "inputs of every length, padding included", "anchors": ["src/crypto/hashable.rs: hash, CryptoHash, Display", "src/crypto/vrf.rs: Sha512", "src/data/basics/address.rs: Display"]}
{"id": "C139", "title": "The curve of the verifiable random function is a group of the order it claims", "statement": "Point addition on the curve the code uses is a commutative group, the base point has the prime order 2^252 + 27742317777372353535851937790883648493, eight times that order annihilates every point, and a point is determined by its 32-byte form, which reads back. Proofs made with the key of any seed are accepted with the output the prover computes, have 80 bytes, and two accepted proofs for a key and message give one output unless one of them answers the only challenge it could. A string reads as a point without being that point's own form exactly if its coordinate is not reduced or it has the sign bit on a point with x = 0.", "quantifier": "all points, all multiples, all 32-byte strings, all seeds, messages and proofs", "why_tests_cant": "a group of about 2^255 points and 2^256 strings", "anchors": ["src/crypto/vrf.rs: prove, verify_bytes, to_output, from_seed, hash_to_curve", "src/crypto/vrf.rs: EdwardsPoint, CompressedEdwardsY, Scalar"]}
{"id": "C140", "title": "Signatures of the code's scheme", "statement": "A signature made with a secret is accepted under its public key; an accepted signature cannot be turned into another accepted one by replacing its second half; strict verification accepts exactly the honest signatures whose nonce is not zero; no secret has the default key, the all-zero key or any key of small order; strict verification refuses the all-zero signature under every key.", "quantifier": "all seeds, keys, messages and signatures", "why_tests_cant": "tests sign a few messages", "anchors": ["src/crypto/multisig.rs: sign, verify", "src/crypto/ots.rs: OTS::verify, OTSSecrets::sign", "src/data/transactions/transaction.rs: sign"]}
{"id": "C141", "title": "One-time signatures, multisignatures and signed transactions work with the real primitives", "statement": "With ed25519 and SHA-512/256 themselves: available one-time identifiers sign and verify unless a nonce is zero, deleted ones give a signature that verifies for nothing, enough signers of a multisignature make one that verifies, and a signed transaction names and verifies under the key of its signer, whatever the secret.", "quantifier": "all seeds, messages, thresholds, key lists and sequences of deletions", "why_tests_cant": "secrets and messages are unbounded", "anchors": ["src/crypto/ots.rs: generate, sign, delete_before, verify", "src/crypto/multisig.rs: sign, assemble, verify", "src/data/transactions/transaction.rs: sign"]}
{"id": "C142", "title": "Proofs and credentials with the real curve", "statement": "With the curve and the hash the code uses: a proof accepted under two keys or for two messages means that two strings hashed go to one point or have one challenge; proofs with one output have the same point up to the cofactor unless digests collide; an 80-byte string that decodes is the byte form of its proof exactly if the coordinate in it is reduced and has no sign bit where the point has none; and the credential a member makes is accepted unless its weight is zero.", "quantifier": "all keys, messages, proofs, seeds, memberships and protocols", "why_tests_cant": "2^640 strings of 80 bytes; tests verify a few vectors", "anchors": ["src/crypto/vrf.rs: verify_bytes, decode, to_output, prove", "src/data/committee/credential.rs: verify, new"]}
{"id": "C143", "title": "Hashing to the curve never fails", "statement": "Hashing any message under any public key to the curve gives a point, so proving and verifying never panic there: the number taken from the digest always gives the coordinate of a point, the point is 8 times the one with that coordinate and the sign in the digest, its order divides the prime order of the group, and at most four numbers (r, -r, 1/(2r), -1/(2r)) give the same coordinate.", "quantifier": "all strings of 32 bytes", "why_tests_cant": "2^256 strings; the library would panic at one without a point, and tests hash a few messages", "anchors": ["src/crypto/vrf.rs: hash_to_curve"]}
{"id": "C144", "title": "A participation works from its generation to its last round", "statement": "Whoever generates participation keys for an interval of rounds, deletes old keys as rounds pass, and restarts the program at any time, can rely on this: what is read back from the store makes the same key registration as at the start; the registration is well formed; a vote signed for any round of the interval not yet passed verifies under the vote key and dilution that the registration names (unless one of its signatures was made with a nonce that is zero modulo the group order), and one for a passed round does not; and the credentials made with the selection key are accepted under the selection key that the registration names unless their weight is zero. This is said of ed25519 and the verifiable random function as the code computes them.", "quantifier": "all intervals, dilutions below 2^32, secrets of 32 bytes, sequences of deletions, messages, and rounds; excluded is the last 64-bit round with dilution one", "why_tests_cant": "the sequences of generation, deletions, and restarts are unbounded, and the claim joins four components that are each tested alone", "anchors": ["src/data/account.rs: Participation::fill_db_with_participation_keys, delete_old_keys, restore, generate_registration_transaction", "src/crypto/ots.rs: OTSSecrets::sign, OTS::verify", "src/crypto/vrf.rs: VrfKeypair::prove, VrfPublicKey::verify", "src/data/committee/credential.rs: UnauthenticatedCredential::verify"]}
{"id": "C145", "title": "Merkle trie: what it does with keys of different lengths", "statement": "The trie does not check the length of an added key, and its behaviour is nevertheless determined by the set of members and the length of the key added first since it was last empty. An addition answers false for a member, panics for a key that begins with a member or with which a member begins, and adds the key otherwise. A deletion from a non-empty trie returns an element-length error unless the key has the length of the first key; then it removes a member and answers true, panics for a key that is not a member if two members begin with it, and answers false otherwise. So members never begin with one another, a member whose length is not that of the first key cannot be deleted, the root hash depends on the set of members only and commits to it as for keys of one length, and the storage holds exactly the nodes reachable from the root.", "quantifier": "all sequences of additions, deletions, and root hash requests with keys of all lengths below 2^32 (for the commitment: of at most 256 bytes), as long as the node counter does not overflow", "why_tests_cant": "the shapes a trie with keys of mixed lengths can reach are unbounded, and the panics depend on the relation between a new key and all members", "anchors": ["src/crypto/merkletrie/trie.rs: Trie::add, Trie::delete, Trie::root_hash", "src/crypto/merkletrie/node.rs: Node::find, Node::add, Node::remove, Node::calculate_hash"]}
{"id": "C146", "title": "Rewards conserve the money of all accounts", "statement": "Take any accounts and let rounds pass, each computing the next rewards state with the reward units of the accounts as stored, and let rewards be applied to any of the accounts at any time in between. Then the money reported for all accounts together with the residue grows by exactly the rates that were handed out, in all builds, and applying rewards does not fail, as long as the total fits 64 bits. An account whose rewards are applied more often never has less money than if they had been applied at some of these times only. The built-in protocols have one reward unit, so this holds across upgrades.", "quantifier": "all sets of accounts of all statuses, all rewards states, all sequences of rounds and applications of rewards, all protocols with one reward unit", "why_tests_cant": "the sequences are unbounded and the claim relates two modules that are tested apart", "anchors": ["src/data/bookkeeping/block.rs: RewardsState::next_state", "src/data/basics/user_balance.rs: AccountData::with_updated_rewards, AccountData::money, pending_rewards", "src/data/basics/units.rs: MicroAlgos::reward_units"]}
{"id": "C147", "title": "Selection follows the binomial distribution and rewards stake", "statement": "If the cumulative distribution that is used is the binomial distribution rounded to the nearest float, selection gives the least number of draws whose cumulative probability reaches the hash as a fraction, every unit of money being drawn with the probability that makes the expected committee; compared to exact arithmetic the probabilities are off by at most 2^-53. More money, a larger expected committee, a smaller total or a greater hash never give a smaller weight. A member of a committee stays in it, with at least its weight, if it had more stake and all else were equal.", "quantifier": "all stakes, totals up to 2^64, expected sizes up to the total, 32-byte hashes, credentials and memberships", "why_tests_cant": "The comparison of two stakes needs all pairs of 64-bit stakes and all hashes, and the distribution is a sum over the stake.", "anchors": ["src/data/committee/sortition.rs: select, sortition_binomial_cdf_walk", "src/data/committee/credential.rs: UnauthenticatedCredential::verify"]}
{"id": "C148", "title": "Weights are drawn as often as they should be, and committees have the expected size", "statement": "Let the cumulative distribution be the binomial one rounded to the nearest float. Of all 2^256 hashes the share that gives an account at most i draws is the binomial probability of at most i successes, up to 2^-52; these are the smallest hashes. The average weight of an account over all hashes is its money times the probability of a draw, up to its money times 2^-52. For any accounts, the average weights add up to the expected size of the committee, up to (total + 2 expected) * 2^-52: the stake may be divided among accounts in any way.", "quantifier": "all stakes, totals up to 2^64, expected sizes up to the total, all lists of accounts; sums over all 32-byte hashes", "why_tests_cant": "Averages over 2^256 hashes cannot be enumerated, sampling gives them with an error far above the bound.", "anchors": ["src/data/committee/sortition.rs: select, sortition_binomial_cdf_walk"]}
{"id": "C149", "title": "One trusted header hash is enough to check transactions of the whole past", "statement": "A client that knows the first header and trusts one header hash is given headers and a membership proof by anyone. If the headers pass the header check one after another, end with the trusted hash, and the proof is accepted against one of them, then the chain of blocks with that last hash has these transactions in the block of that round, at these positions. Otherwise there is a collision of the hash function, or a string hashed to zeros, among the strings hashed.", "quantifier": "all chains of blocks whose contents match their headers, all lists of headers, all positions, claims and proofs, all hash functions with 32-byte digests", "why_tests_cant": "It is about all forged headers and proofs, for chains of all lengths.", "anchors": ["src/data/bookkeeping/block.rs: BlockHeader::pre_check, Block::contents_match_header, Block::tx_merkle_tree", "src/crypto/merklearray/merkle.rs: verify"]}
{"id": "C150", "title": "What is printed tells what it is about", "statement": "The report that the command-line tool prints on a participation key has eight titled lines with the parent address, the two public keys in base 64 and the validity, dilution and next one-time key as decimal numbers; a text is the report on at most one such set of facts. Keys are shown in padded base 64 as RFC 4648 defines it, amounts and rounds as decimal numbers without leading zeros. The printed identifier of a transaction is read back as the identifier, and two transactions with the same printed identifier are equal or show a collision of the hash function.", "quantifier": "all participations, keys of all lengths, all 64-bit numbers, all transactions and 32-byte hash functions", "why_tests_cant": "All texts and all values; a missing separator or digit is ambiguous only for particular values.", "anchors": ["src/bin/algokey/part.rs: print_participation_key", "src/crypto/vrf.rs: Display for VrfPublicKey", "src/data/basics/units.rs: Display for MicroAlgos, Display for Round", "src/data/transactions/transaction.rs: Display and TryFrom for TxID"]}
{"id": "C151", "title": "Selection tolerates errors of the distribution", "statement": "If the library computes the binomial distribution with an error of at most eps, in whatever way, then selection still gives the quantile of the hash up to eps and one rounding; the share of the hashes that give at most i draws, the average weight of an account per unit of money and the average weight of a committee per unit of all money are off by at most eps and one rounding.", "quantifier": "all distributions within eps, all eps, hashes, stakes, totals and expected sizes, all lists of accounts", "why_tests_cant": "The average ranges over all 2^256 hashes and all libraries with this error.", "anchors": ["src/data/committee/sortition.rs: select, sortition_binomial_cdf_walk", "src/data/committee/credential.rs: UnauthenticatedCredential::verify"]}
{"id": "C152", "title": "Merkle proofs are as short as they can be", "statement": "A proof contains exactly one hash for every node on the way from the requested positions to the root whose neighbour is not itself on the way. So for one position of an array of n elements it has the logarithm of n, rounded up, many hashes; for many positions at most so many for each, however often they are repeated; and none for all positions of a full tree.", "quantifier": "all arrays, all lists of positions, all hash functions", "why_tests_cant": "All arrays and sets of positions; tests look at single proofs.", "anchors": ["src/crypto/merklearray/merkle.rs: Tree::from_array, Tree::prove", "src/crypto/merklearray/partial.rs: PartialLayer::up"]}
{"id": "C153", "title": "The trie stores one node per member and per shared beginning", "statement": "After any history of insertions, removals and hash computations the storage holds one node for every member and one for every string with which two or more members begin, and nothing else. So members of at most n bytes take at most n + 1 nodes each, and removing keys gives their space back.", "quantifier": "all successful histories with keys of any lengths, all hash functions, both build modes", "why_tests_cant": "All histories; a test can count nodes after a few of them.", "anchors": ["src/crypto/merkletrie/trie.rs: Trie::add, Trie::delete", "src/crypto/merkletrie/node.rs: Node::add, Node::remove", "src/crypto/merkletrie/cache.rs: MerkleTrieCache"]}
{"id": "C154", "title": "Splitting money over accounts gains nothing", "statement": "How often accounts are drawn together depends on the sum of their money only: over all combinations of hashes, one for each account, the number of draws has the binomial distribution of the sum. So the same money on one account or on many is drawn equally often, up to the errors of the computed distribution and of the floats, once for each account.", "quantifier": "all lists of accounts, all totals and expected committee sizes, all numbers of draws, any error of the library", "why_tests_cant": "All ways of splitting money and all combinations of 256-bit hashes.", "anchors": ["src/data/committee/sortition.rs: select", "src/data/committee/credential.rs: UnauthenticatedCredential::verify"]}
{"id": "C155", "title": "Committees rarely have many more or fewer votes than expected", "statement": "The share of the combinations of hashes with which accounts are drawn far more or far less often than expected falls exponentially with the distance. With the committee sizes and thresholds of every built-in protocol and in every step, accounts with a fifth of the money reach the threshold with a share of less than exp(-100), and accounts with nineteen of twenty parts of it miss the threshold with a share of less than exp(-15), plus the errors of the computed distribution and of the floats.", "quantifier": "all built-in protocols, all steps, all lists of accounts, all totals, any error of the library", "why_tests_cant": "Such events are too rare for tests to see them.", "anchors": ["src/data/committee/sortition.rs: select", "src/config/consensus.rs: soft_committee_size, soft_committee_threshold and the other committees"]}
{"id": "C156", "title": "Multisignatures can be merged in any order", "statement": "Merging does not depend on the order, the grouping or repetitions: either way of merging succeeds when the other does, with the same result. Assembling a list agrees with merging two by two, and as long as no two multisignatures carry different signatures for one key, its result does not depend on the order of the list or on repetitions either.", "quantifier": "all multisignatures, all lists of them", "why_tests_cant": "All ways of combining any number of parts.", "anchors": ["src/crypto/multisig.rs: MultisigSignature::merge, MultisigSignature::assemble"]}
{"id": "C157", "title": "Deleting one-time keys is idempotent and frees exactly the unusable keys", "statement": "Deleting before an identifier that is not after one already deleted changes nothing. Only the latest deletion matters for what can be signed, whatever was deleted before and in whatever order. The number of secrets held in memory is the number of batches after it plus the number of identifiers left in its batch.", "quantifier": "all schemes, all sequences of deletions with one number of keys per batch, all identifiers; batch numbers below 2^64-1", "why_tests_cant": "All histories of deletions, out of order and across batch borders.", "anchors": ["src/crypto/ots.rs: delete_before, sign"]}
{"id": "C158", "title": "Normalized balances are comparable over time", "statement": "The normalized balance of an online account that got its rewards since level 0 is the balance it had at level 0, up to what it had beyond whole reward units, so that normalized balances of accounts updated at different levels tell which one had more as soon as they differ by a unit. Accounts updated at the same level are ordered by them as by their money at any later level. Getting rewards never lowers the normalized balance by more than the part of the balance beyond whole units.", "quantifier": "all online accounts, parameters and levels for which the calls succeed", "why_tests_cant": "All balances and levels; rounding could break the order.", "anchors": ["src/data/basics/user_balance.rs: normalized_online_balance, with_updated_rewards, money"]}
{"id": "C159", "title": "Splitting money over accounts gains no rewards", "statement": "Participating accounts that together hold what one account holds, updated at the same level, have at any later level together no more money than it, and less by at most one unit's rewards for each account but one.", "quantifier": "all lists of accounts, parameters and levels for which the calls succeed", "why_tests_cant": "All ways to split any amount.", "anchors": ["src/data/basics/user_balance.rs: money, with_updated_rewards"]}
{"id": "C160", "title": "Merkle array: accepted proofs agree whatever the root is", "statement": "If two membership proofs are accepted for the same root, they agree about the elements at the positions both are about, unless two of the strings hashed collide, even if the root was not made from an array but was chosen by an adversary.", "quantifier": "all roots, claims and proofs, every hash function", "why_tests_cant": "All adversarial roots and proofs.", "anchors": ["src/crypto/merklearray/merkle.rs: Tree::verify"]}
{"id": "C161", "title": "Setting a block's seed changes nothing else", "statement": "Setting the seed of a block gives a block with that seed and otherwise the same header and transactions. It passes the header check and the contents check exactly if the block did before. Its digest differs from that of the block with another seed, and a next block is accepted after a block with one seed only, unless the hash function has a collision.", "quantifier": "all blocks, seeds, protocol tables, previous headers and hash functions", "why_tests_cant": "All blocks and seeds, and no collision for the next block.", "anchors": ["src/data/bookkeeping/block.rs: Block::with_seed, Block::seed, Block::digest, BlockHeader::pre_check, Block::contents_match_header"]}
{"id": "C162", "title": "Transactions cannot be replayed later or elsewhere", "statement": "A well-formed transaction is alive only in rounds that are at most the longest transaction life apart, 1000 rounds in the built-in protocols. A transaction with a genesis hash, as required from V16 on, is alive on networks with one genesis hash only, and can be put into blocks and taken from blocks of such networks only; one with a genesis identifier is alive only on networks of this identifier.", "quantifier": "all transactions, contexts, headers and protocol parameters", "why_tests_cant": "All pairs of rounds and networks.", "anchors": ["src/data/transactions/transaction.rs: Header::alive, Transaction::is_well_formed", "src/data/bookkeeping/block.rs: BlockHeader::encode_signed_tx, BlockHeader::decode_signed_tx", "src/config/consensus.rs: CONSENSUS"]}
{"id": "C163", "title": "Mistyped addresses and mnemonics are noticed", "statement": "Of two accepted address texts that differ in one character, it is not one of the last six, the addresses differ, and the ends of their hashes are the same, so that a mistyped character is noticed unless checksums coincide; texts that differ only in the last six characters are never both accepted. A mnemonic with another last word is never accepted, and one with other words before the last never stands for the same key and is accepted only if the checksums of the two keys coincide.", "quantifier": "all texts, all positions of mistakes, every hash function", "why_tests_cant": "All pairs of texts, and every coincidence of checksums.", "anchors": ["src/data/basics/address.rs: Address::from_str, Address::fmt", "src/crypto/mnemonic.rs: key_to_mnemonic, mnemonic_to_key, checksum"]}
{"id": "C164", "title": "Headers count on", "statement": "In a block that passes the header check after a previous header, in particular one made by the node, the number of committed transactions is that of the previous header plus the number of transactions of the block, and the rewards level is not lower than before.", "quantifier": "all previous headers, blocks, protocol tables, clocks and hash functions", "why_tests_cant": "All successions of headers, and all values of fields a check does not look at.", "anchors": ["src/data/bookkeeping/block.rs: Block::new, BlockHeader::pre_check, BlockHeader::tx_counter, RewardsState"]}
{"id": "C165", "title": "Stored trie nodes are not bigger than documented", "statement": "After any history of insertions, deletions and root hashes over keys of at most 181 bytes, no node kept by the trie has a stored form longer than the documented size of the biggest node, 3000 bytes; for longer keys the bound is 2819 bytes more than the longest key.", "quantifier": "all histories, keys and hash functions with 32 byte results", "why_tests_cant": "Every shape of trie that some history leaves behind; the biggest node has 256 children and a long prefix.", "anchors": ["src/crypto/merkletrie/trie.rs: MAX_NODE_SERIALIZED_SIZE", "src/crypto/merkletrie/node.rs: Node::serialize"]}
{"id": "C166", "title": "Stored accounts are not bigger than documented", "statement": "Address and data of an account that holds, created and opted in to no more than a built-in protocol allows, whose books are kept as documented and whose minimum balance is within the limit of the protocol on minimum balances, take at most 850000 bytes when serialized, the documented worst case.", "quantifier": "all accounts, addresses and built-in protocols", "why_tests_cant": "The biggest account has thousands of entries in its maps, and every combination of them counts; the test that the documentation names does not exist.", "anchors": ["src/data/basics/user_balance.rs: MAX_ENCODED_ACCOUNT_DATA_SIZE, AccountData, BalanceRecord", "src/config/consensus.rs: maximum_minimum_balance, init_consensus_protocols"]}
{"id": "C167", "title": "Acceptable transactions are small, and groups of them fit into a block", "statement": "A transaction that is well-formed under a built-in protocol and alive in a block of a network whose identifier has at most 255 bytes takes at most 24100 bytes when serialized; and a group of as many of them as the protocol allows, each signed by one key, takes no more bytes than the protocol allows in a block.", "quantifier": "all transactions, groups, rounds, networks, built-in protocols, special addresses, hash functions and signatures", "why_tests_cant": "Every combination of long fields; the sizes depend on the values of numbers and bytes and not only on lengths, since byte strings are serialized as arrays of numbers.", "anchors": ["src/data/transactions/transaction.rs: Transaction::is_well_formed, TxHeader::alive", "src/data/transactions/signed_tx.rs: SignedTx::get_encoded_length", "src/config/consensus.rs: max_tx_bytes_per_block, max_tx_group_size"]}
{"id": "C168", "title": "The minimum balance pays for the storage", "statement": "An account that keeps to the limits of a built-in protocol and whose books are kept as documented takes at most 43 bytes when serialized for each 1000 microAlgos of its minimum balance, so nobody gets storage without a deposit.", "quantifier": "all accounts, addresses and built-in protocols", "why_tests_cant": "Any combination of assets, applications, schemas, pages and states counts; tests can only look at some of them.", "anchors": ["src/data/basics/user_balance.rs: AccountData::min_balance, AccountData, BalanceRecord", "src/data/basics/teal.rs: StateSchema::min_balance", "src/config/consensus.rs: init_consensus_protocols"]}
{"id": "C169", "title": "Upgrades do not invalidate transactions", "statement": "A transaction that is well formed and valid in a round under a built-in protocol stays so under every protocol that it can be upgraded to, with two exceptions: key registrations that neither go offline nor online where that is checked, and transactions without genesis hash where it is required.", "quantifier": "all transactions, contexts and paths of upgrades", "why_tests_cant": "Users sign transactions ahead; whether any of them breaks in an upgrade concerns all transactions and all pairs of protocols.", "anchors": ["src/data/transactions/transaction.rs: Transaction::is_well_formed, Header::alive", "src/data/transactions/keyreg.rs", "src/config/consensus.rs: init_consensus_protocols"]}
{"id": "C170", "title": "Upgrades do not change what accounts have to hold", "statement": "From version 9 on, an account that keeps to the limits of a built-in protocol and whose books are kept as documented has the same minimum balance and keeps to the limits under every protocol that it can be upgraded to, also to the limit on minimum balances.", "quantifier": "all accounts and paths of upgrades", "why_tests_cant": "Concerns every account, with any combination of assets and applications, and all pairs of protocols.", "anchors": ["src/data/basics/user_balance.rs: AccountData::min_balance", "src/config/consensus.rs: init_consensus_protocols"]}
{"id": "C171", "title": "The genesis block matches its own header", "statement": "The contents of the block made from a genesis match its header, like those of every other block of the chain.", "quantifier": "all genesis allocations, identifiers, hashes and built-in protocols", "why_tests_cant": "Concerns every genesis and protocol; a test of one protocol cannot tell that another one commits in another way.", "anchors": ["src/data/bookkeeping/genesis.rs: Genesis::create_block", "src/data/bookkeeping/block.rs: Block::payset_commit, Block::contents_match_header", "src/data/transactions/payset.rs: Payset::commit_genesis"]}
{"id": "C172", "title": "A network can start", "statement": "After a genesis block of any built-in protocol the node can make any number of blocks one after another, whatever its clock says; each passes the header check and the contents check after the one before.", "quantifier": "all genesis allocations, built-in protocols, numbers of blocks and clocks", "why_tests_cant": "Chains of any length under any sequence of clock values.", "anchors": ["src/data/bookkeeping/genesis.rs: Genesis::create_block", "src/data/bookkeeping/block.rs: Block::new, BlockHeader::pre_check, process_upgrade_params"]}
{"id": "C173", "title": "A leader can be chosen", "statement": "Comparing credentials is a strict weak order, and although every comparison changes both credentials its answer does not depend on what was compared before. So every non-empty set of credentials has one that nobody comes before, and nodes that hold the same credentials in different orders choose leaders that tie.", "quantifier": "all credentials as verification makes them, hash functions, sets and histories of comparisons", "why_tests_cant": "All histories of comparisons; the counter kept inside a credential could leak into a later answer.", "anchors": ["src/data/committee/credential.rs: Credential::lt, Credential::lowest_output"]}
{"id": "C174", "title": "More weight never ranks worse", "statement": "Of two credentials that differ in weight only, the lighter one never comes before the heavier one.", "quantifier": "all credentials, hash functions and pairs of weights", "why_tests_cant": "All weights and hashes; the boundary weight decides.", "anchors": ["src/data/committee/credential.rs: Credential::lowest_output, Credential::lt"]}
{"id": "C175", "title": "The chance to lead is the share of the weight", "statement": "If all outcomes of the hashes count alike, each credential comes before all others in as many of them as its share of the total weight says, up to the outcomes in which hashes are equal.", "quantifier": "all sets of credentials, weights and numbers of possible hash values", "why_tests_cant": "A statement about all outcomes of the hash function; no number of samples settles it.", "anchors": ["src/data/committee/credential.rs: Credential::lowest_output, Credential::lt"]}
{"id": "C176", "title": "Merkle trie: an update costs no more than the length of its key", "statement": "Adding or deleting an element changes a number of stored nodes bounded by the length of the key alone, not by the number of members: at most three more than the key has bytes for an addition, at most one more than twice as many for a deletion, and none if the call answers false. If the root hash was known before, computing it again after the update changes at most one node in addition: the hashes of all parts that the update did not touch are kept.", "quantifier": "all tries and keys for one call; all histories of additions, deletions and root hashes with keys of any lengths before the update", "why_tests_cant": "A test sees the cost for the tries it builds; that it does not grow with the number of members is a statement about all tries.", "anchors": ["src/crypto/merkletrie/trie.rs: Trie::add, Trie::delete, Trie::root_hash", "src/crypto/merkletrie/node.rs: Node::add, Node::remove, Node::calculate_hash", "src/crypto/merkletrie/cache.rs: MerkleTrieCache"]}
{"id": "C177", "title": "Merkle trie: it goes on after a restart", "statement": "The nodes of a trie are kept in persistent storage. A trie that is opened anew with this storage and the identifier of its root answers all calls like the trie it was.", "quantifier": "all histories of additions, deletions and root hashes before the restart and all calls after it", "why_tests_cant": "A test restarts after one history; that the lost cache never matters is a statement about all of them.", "anchors": ["src/crypto/merkletrie/trie.rs: Trie::new, Trie::root, Trie::add, Trie::delete, Trie::root_hash", "src/crypto/merkletrie/cache.rs: MerkleTrieCache::new, MerkleTrieCache::get_node", "src/crypto/merkletrie/storage.rs: Storage"]}
{"id": "C178", "title": "Deleted participation keys do not come back", "statement": "Once the node has deleted the participation keys of past rounds, it can never again sign for those rounds, however often it is restarted and whatever further deletions follow; and it goes on signing for all rounds of the interval that no deletion reached.", "quantifier": "all freshly made participations, all sequences of deletions (with any storage failures) and restarts, all rounds of the interval, all messages", "why_tests_cant": "Forward security is about every later state; a test looks at one restart after one deletion.", "anchors": ["src/data/account.rs: Participation::delete_old_keys, Participation::restore, Participation::fill_db_with_participation_keys", "src/data/account_manager.rs: AccountManager::delete_old_keys"]}
{"id": "C179", "title": "Merkle trie: failures of the storage are reported and do no damage", "statement": "When an access to the storage of a trie fails, the call that made it gives an error, and the trie afterwards answers all calls as if the failed one had not been made.", "quantifier": "all calls on all tries, all places at which an access can fail, all later calls", "why_tests_cant": "There are as many places to fail as accesses, on every shape of the trie; tests use storage that never fails.", "anchors": ["src/crypto/merkletrie/cache.rs: CacheError, MerkleTrieCache::get_node, MerkleTrieCache::set_node, MerkleTrieCache::delete_node", "src/crypto/merkletrie/trie.rs: Trie::add, Trie::delete, Trie::root_hash", "src/crypto/merkletrie/node.rs: Node::find, Node::add, Node::remove, Node::calculate_hash"]}
{"id": "C180", "title": "The announced next protocol is the one that comes", "statement": "Each header of a chain announces a protocol version and a round after its own. The protocol of the chain does not change before that round, and the block of that round has the announced version.", "quantifier": "all chains of accepted headers from any start without a pending upgrade, all their headers, all later headers", "why_tests_cant": "The announcement is about all ways in which the chain can go on, with all votes of later blocks.", "anchors": ["src/data/bookkeeping/block.rs: BlockHeader::next_version_info, BlockHeader::pre_check, UpgradeState::apply_upgrade_vote"]}
{"id": "C181", "title": "The announcement says whether the next protocol is supported", "statement": "The flag in the announcement of the next protocol is true exactly when this program knows the announced version.", "quantifier": "all chains of accepted headers, all their headers", "why_tests_cant": "Needs a vote for a version that the program does not have.", "anchors": ["src/data/bookkeeping/block.rs: BlockHeader::next_version_info"]}
{"id": "C182", "title": "Application calls reach only what they list, within the protocol's limits", "statement": "In a well-formed application call an index that stands for an account or an application is at most the protocol's limit for such references, both together at most the limit for all references, and what it stands for is the sender, the called application, or listed in the call.", "quantifier": "all well-formed application calls, all indexes, all protocols", "why_tests_cant": "All lists of references and all limits.", "anchors": ["src/data/transactions/application.rs: AppCallFields::address_by_index, AppCallFields::app_id_by_index", "src/data/transactions/transaction.rs: Transaction::is_well_formed"]}
{"id": "C183", "title": "Blocks give back the transactions that were put into them, in their groups", "statement": "If transactions with their results are encoded one by one for a block, decoding the block gives exactly these transactions and results in the same order, split into exactly the groups in which they are. This can be done with all transactions whose genesis fields are right for the header.", "quantifier": "all headers, all lists of transactions, all groupings", "why_tests_cant": "All group patterns together with all combinations of genesis fields and protocols.", "anchors": ["src/data/bookkeeping/block.rs: BlockHeader::encode_signed_tx, Block::decode_payset_flat, Block::decode_payset_groups", "src/data/transactions/signed_tx.rs: wrap_signed_txs_with_ad"]}
{"id": "C184", "title": "The transactions of a block that were written are read back as they were", "statement": "Decoding what was written of a block's transactions gives the same transactions with the same results, inner transactions and marks of how they name the genesis.", "quantifier": "all lists of transactions of a block, with results and inner transactions nested to any depth, all that follows them, both ways in which readers treat bytes, all tests of keys and signatures", "why_tests_cant": "All nestings of inner transactions, all maps of changes and all combinations of fields left out.", "anchors": ["src/data/transactions/signed_tx.rs: SignedTxInBlock, SignedTxWithAD", "src/data/transactions/transaction.rs: ApplyData", "src/data/transactions/teal.rs: EvalDelta", "src/data/basics/teal.rs: StateDelta, ValueDelta", "src/data/transactions/payset.rs: Payset", "src/protocol/codec.rs: encode, decode"]}
{"id": "C185", "title": "Whatever the bytes, decoded transactions of a block are of the right type", "statement": "Whatever bytes are decoded as the transactions of a block: if this succeeds, all numbers are in their ranges, strings are UTF-8, keys and signatures are ones the library accepts, and maps of changes have one entry per key - also in inner transactions, however deep.", "quantifier": "all byte strings, both ways in which readers treat bytes, all tests of keys and signatures", "why_tests_cant": "All byte strings.", "anchors": ["src/data/transactions/signed_tx.rs: SignedTxInBlock, SignedTxWithAD", "src/data/transactions/transaction.rs: ApplyData", "src/data/transactions/teal.rs: EvalDelta", "src/data/basics/teal.rs: StateDelta, ValueDelta", "src/data/transactions/payset.rs: Payset", "src/protocol/codec.rs: decode"]}
{"id": "C186", "title": "Transactions of a block read the same by place and by name", "statement": "A transaction of a block, one with results, the results and the changes in them are read the same from an array of their fields in order and from a map of them by name, in any order and among other names. Marks and results that are missing are the default. Nothing else is read: no field twice, none too many, none missing without a default.", "quantifier": "all ways to give the fields, all encodings of them, all that follows, both ways in which readers treat bytes, all tests of keys and signatures", "why_tests_cant": "All orders, other names and encodings.", "anchors": ["src/data/transactions/signed_tx.rs: SignedTxInBlock, SignedTxWithAD", "src/data/transactions/transaction.rs: ApplyData", "src/data/transactions/teal.rs: EvalDelta", "src/data/basics/teal.rs: StateDelta, ValueDelta", "src/data/transactions/payset.rs: Payset", "src/protocol/codec.rs: decode"]}
{"id": "C187", "title": "Transactions put into a block come out of what was written of it", "statement": "If transactions with their results are encoded one by one for a block, the block's transactions are written and read back, and what was read is decoded with the block's header, this gives exactly the transactions that were put in.", "quantifier": "all headers and consensus tables, all lists of transactions, all that follows the bytes, both ways in which readers treat bytes, all tests of keys and signatures", "why_tests_cant": "All transactions, genesis fields and protocols together.", "anchors": ["src/data/bookkeeping/block.rs: BlockHeader::encode_signed_tx, BlockHeader::decode_signed_tx, Block::decode_payset_flat", "src/data/transactions/signed_tx.rs: SignedTxInBlock", "src/data/transactions/payset.rs: Payset", "src/protocol/codec.rs: encode, decode"]}
{"id": "C188", "title": "Signed transactions read the same in order and by name", "statement": "Decoding a signed transaction, a multisignature, one of its signatures or a logic signature gives the same from an array of its fields in order and from a map of them by name, in any order and with unknown names among them. Given by name, with the signatures it does not have left out, a transaction that names no account is read with exactly the signatures it has. Nothing but these two forms is read.", "quantifier": "all values of the fields, all ways to write them, all that follows the bytes, both ways in which readers treat bytes, all tests of keys and signatures", "why_tests_cant": "The order and choice of names is unbounded, and so are the ways to write each value.", "anchors": ["src/data/transactions/signed_tx.rs: SignedTx", "src/data/transactions/logicsig.rs: LogicSig", "src/crypto/multisig.rs: MultisigSignature, MultisigSubsig", "src/protocol/codec.rs: decode"]}
{"id": "C189", "title": "Registration transactions can enter the chain", "statement": "For participation keys as they are generated, the registration transaction the participation returns, with a sufficient fee and a validity window the protocol allows, is well formed, can be applied exactly in the rounds of its window, and once signed can be put into a block and taken out again.", "quantifier": "all participations, fees, windows and leases, all contexts, block headers, consensus tables and signature schemes", "why_tests_cant": "All protocols and windows; whether a transaction is applicable depends on the chain it is for.", "anchors": ["src/data/account.rs: Participation::generate_registration_transaction", "src/data/transactions/transaction.rs: Header::alive, Transaction::is_well_formed", "src/data/bookkeeping/block.rs: BlockHeader::encode_signed_tx, BlockHeader::decode_signed_tx"]}
{"id": "C190", "title": "Nobody owns the sender of certificates", "statement": "Every compact certificate transaction that is well formed has one reserved sender. Whoever presents a multisignature that is accepted for this sender, keys whose multisignature address it is, or an application whose address it is, presents two different named strings with the same hash; and a plain key signs a certificate in the name of its sender exactly if the key equals the hash of the reserved string.", "quantifier": "all certificates, protocols whose limits fit, special addresses, hash functions, signature schemes, multisignatures, keys and applications", "why_tests_cant": "A test can try some keys; that no keys reach the reserved address is a claim about all of them.", "anchors": ["src/data/transactions/transaction.rs: Transaction::is_well_formed", "src/data/transactions/compactcert.rs: COMPACT_CERT_SENDER", "src/crypto/multisig.rs: MultisigAddr, MultisigSignature::verify", "src/data/basics/user_balance.rs: AppIndex::address", "src/data/transactions/signed_tx.rs: SignedTx::authorizer", "src/protocol/hash.rs: HashID"]}
{"id": "C191", "title": "Merkle trie: keys of any length can be deleted", "statement": "A key that was added to the trie can be deleted again, whatever its length.", "quantifier": "all keys, hash functions, overflow modes and histories of calls", "why_tests_cant": "A test would need keys of four gigabytes; that none of them is ever deleted is a claim about all histories.", "anchors": ["src/crypto/merkletrie/trie.rs: Trie::add, Trie::delete"]}
