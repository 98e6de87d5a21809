# Formal model of algorand-rs: design

The code under study is `/repo` (Rust, pinned commit).  Nothing is built or run;
every definition of the model is a hand translation of the Rust text and cites
file and lines.  The proofs are in Rocq (Coq 8.16.1), in `rocq/theories`.

## Conventions

* **Layout.**  For every area `X` there are up to four files:
  `XModel.v` (translation of the code, no proofs), `XSpec.v` (the small
  independent vocabulary in which the property is stated), `XProofs.v` (lemmas),
  `XProps.v` (only the property theorems, each closed by `exact lemma`, followed
  by `Print Assumptions`, and beside each an `Example` showing that its
  hypotheses are met by a concrete non-trivial case).
* **Bytes** are `Coq.Init.Byte.byte`; `Vec<u8>`/slices are `list byte`.
* **Machine integers** are `N` (`u64`, `u32`, `usize`) or `Z` (`i64`).  Where a
  property depends on overflow the model takes the build mode
  (`Debug` = overflow panics, `Release` = wraps) as an argument and theorems
  quantify over it.
* **Control.**  `Result` and `Option` stay data.  A panic (`unwrap`, slice index
  out of bounds, `unreachable!`, integer overflow in debug) is the value
  `Panic` of `outcome`.  `&mut self` methods return the new state.
* **Loops** are structural recursion or fuel; running out of fuel is a
  separate value that theorems exclude.
* **Cryptography** is a parameter.  Hash functions are arbitrary functions from
  bytes to 32-byte strings; signature schemes and the VRF group are records of
  operations with the algebraic laws they are required to satisfy stated as
  hypotheses of the theorem that uses them.  Nothing is an axiom.
* **Binding properties** cannot be stated as "no collision exists" (false) nor as
  "or there is a collision" (trivially true).  They are stated as "or two
  different strings, both members of the explicit list of strings hashed in the
  two computations, have equal hash", with that list part of the specification.
* **Properties the code violates** keep their English statement; the negation is
  proved as a theorem `..._refuted` with a concrete witness, and what does hold
  is proved under the suffix `_partial`.

## Plan per property

| id | modelled | how proved |
|----|----------|------------|
| C01-C06 | `Layer::up`, `Tree::from_array/root/prove/verify`, `Siblings::get`, `PartialLayer::up` | lock-step induction over the levels of prover and verifier; soundness by induction on levels comparing recomputed nodes with true nodes |
| C07-C11 | `Trie`, `Node`, `MerkleTrieCache`, in-memory storage, including the node codec | representation predicate "heap represents canonical trie of a finite set"; invariant over operation lists |
| C12 | same | delete: error unchanged; add: refuted by witness |
| C13 | `Node::serialize/deserialize`, LEB128 varints | round trip by induction |
| C14 | `Bitset` | refinement to a predicate on indices |
| C15-C16 | `mnemonic.rs` | bit-regrouping as positional numerals; injectivity of the word list by computation |
| C17-C22 | `multisig.rs`, `batch_verifier.rs` | case analysis and induction over subsignature lists; C21 refuted (repeated keys) |
| C23-C26 | `ots.rs` | invariant over histories of deletions; signature scheme as record |
| C27-C29 | `vrf.rs` | group algebra over an abstract module; codec by bit arithmetic |
| C30-C31 | `protocol/hash.rs`, `protocol/tags.rs` | finite computation lifted to arbitrary payloads |
| C32-C35 | `address.rs`, `hashable.rs` with base 32 | positional numerals; C34 refuted |
| C36-C40 | `units.rs`, `user_balance.rs` | arithmetic over `N` with explicit overflow |
| C41-C46 | `transaction.rs`, `payment.rs`, `keyreg.rs`, `signed_tx.rs` ... | equivalence with a declarative predicate; C43, C45 refuted |
| C47-C57 | `block.rs`, `payset.rs` | algebra and invariants over vote histories; C50, C52, C53, C56 refuted where the code violates them |
| C58-C61 | `sortition.rs`, `credential.rs` | cumulative distribution abstract; C60, C61 refuted |
| C62-C64 | `consensus.rs`, `keyfile.rs` | table translated literally and computed; merge over every permutation |
| C65-C67 | `application.rs`, `basics/teal.rs` | list induction |
| C68-C71 | `account.rs`, `account_manager.rs`, `genesis.rs` | crash points as prefixes of the write sequence; C70 refuted |
| C72 | `codec.rs` (message pack of the used shapes) | prefix-free encoding; refuted for `SignedTxInBlock` |
| C73 | `SignedTxInBlock` encoding with its hash maps in any iteration order | refuted by two orders of one map; partial while no map has two entries |
| C74-C75 | `Participation::delete_old_keys`, `AccountManager` over a key-value store | invariants over held participations and histories of deletions; refuted where the code drops needed keys or mixes participations |
| C76 | `Root::generate/import/restore` | generation always panics (refuted); a stored key pair is read back (partial) |
| C77 | `generate_registration_transaction`, `KeyRegistration::check_coherency` | field by field, and equivalence with the coherency rule |
| C78-C81 | the `algokey` commands `generate`, `import`, `export`, `sign` over a map from file names to contents | composition with the mnemonic and address theorems; C80, C81 refuted |
| C82-C85 | the `algokey part` commands | error analysis of the rounded square root through Flocq; composition with C68-C70; C83, C85 refuted |
| C86-C88 | the settings of a node: JSON text, reading and writing, ninety settings with their types and defaults, files | JSON round trip by induction on the value; which objects are accepted by induction on the entries; C86, C87 refuted |
| C89, C90 | bootstrap names and flags | induction on the pieces between placeholders; bits |
| C91 | the phonebook | JSON round trip; refuted |
| C92, C93 | saving and loading configurable protocols | JSON round trip of the parameter table, composed with C63; C93 refuted |
| C94 | as C01-C06 | the levels of an accepted proof and of the prover's climb in step, by induction on the levels; each sibling hash equals the tree's or gives a collision |
| C95, C96 | block elements, `Tree::from_block` | C01/C02 for the leaves of the block, then injectivity of the encodings (C72) |
| C97 | groups of signed transactions and of hashes | injectivity of the encodings; a signed transaction contains a map, a hash does not |
| C98 | the genesis identifier | induction on the network name |
| C99, C100 | the genesis and its encoding | injectivity field by field; C100 refuted |
| C101 | balance records | refuted |
| C102 | the derived decoders of transactions, over message-pack values | lookup of each entry by name in what is written; refuted for all well-formed transactions, exact condition proved |
| C103 | the derived decoders of signed transactions | by the number of elements written; refuted |
| C104 | `assemble` (modelled for C18) | induction over the list; answers two seeded edits that C18 let pass |
| C105 | `verify_bytes` (modelled for C27) | the strings of the draft, injectivity; answers a seeded edit that C27-C29 let pass |
| C106-C109 | short hashes, size estimate, receivers, version names | computation and cases; C107 refuted |
| C110 | comparison of credentials | induction over the counters; refuted for different weights |
| C111 | verification of credentials (modelled for C59) | cases of the status; answers a seeded edit that C59 let pass |
| C112 | key dilution and one-time key identifiers (modelled for C36) | cases, and computation over the table; answers a seeded edit |
| C113 | application index hashing (user_balance.rs:346-357) | injectivity of the big-endian form and disjoint hash domains |
| C114 | both storages of storage.rs over a sequence of calls; database failures left out | induction over calls against the last content stored; size of the database refuted |
| C115 | what `Hash` feeds a hasher (account_manager.rs:151-159) | injectivity of the feed |
| C116 | `Display` of `TealValue` | injectivity of hexadecimal and decimal; across types refuted |
| C117 | `LogicSig::len`, `is_empty` | induction over the arguments; emptiness refuted for arguments without program |
| C118 | derived `Deserialize` of block headers | field by field on top of the message-pack round trip; the skipped upgrade state refutes the claim |
| C119 | `Genesis::load_from_file` and the derived `Deserialize` of the genesis and account data | as C118, with maps read entry by entry |
| C120 | `pre_check`, the header hash and `contents_match_header` along a chain | backwards by C56 and C57, then forwards: the votes in the headers determine the upgrade states |
| C121 | `pre_check` along a chain | induction over the chain |
| C122 | `pre_check` along a chain | an accepted chain is a history of votes as in C51 |
| C123 | the writing functions of `Participation` with a failing operation | case analysis over the failing operation; generation panics |
| C124 | the message-pack reader (modelled for C72) | against an inductive definition of the format; mutual induction over forms, induction on nesting; answers seeded edits of the readers |
| C125 | `Root::restore`, `Participation::restore` (modelled for C70, C76) | inversion of the readers; answers a seeded edit |
| C126 | the derived decoders (modelled for C102, C103, C118, C119) | what each reader gives, composed along the structure of the types |
| C127 | the derived decoder of transactions | refuted by reordering; the reader depends only on the values found under each name |
| C128 | `load_mnemonic_file` with `BufRead::lines` | reading compared with an inductive definition of lines and of UTF-8; refuted by a damaged line |
| C129 | the conversions of C15 and C16 for an arbitrary word list | the proofs of C15 and C16 for any 2048 different words; refuted by repeated words |
| C130 | the check for UTF-8 | compared with an inductive definition after RFC 3629 |
| C131 | `get_encoded_length` | sums of lengths under permutations; unambiguity of the format (C124) |
| C132 | the global configuration folder, a state machine over file system states | induction over the calls; refuted by an existing folder |
| C133 | the same with the two halves of the override as events of threads | induction over interleavings; refuted by two overlapping calls |
| C134 | the JSON reader and the readers of the settings | the reader compared with a grammar after RFC 8259, both ways by induction; settings compared with an independent description of what a value stands for |
| C135 | the same | from the description in C134, and UTF-8 of all strings in a document |
| C136 | the readers of the protocols and the phonebook | as C134, composed with merging |
| C137 | the derived readers of structs, from arrays and from maps by name | that a map carries a value for each name is stated with permutations; reading is compared with it both ways by induction over the names |
| C138 | SHA-512 and SHA-512/256 as FIPS 180-4 defines them | lengths of the padded message and of the words written |
| C139 | edwards25519 in extended coordinates, point compression, Elligator | primes by Pocklington's criterion; associativity of the Edwards law by `nsatz`; coordinates related to affine points; the order of the base point by verified computation, the exponent of the group by counting; then C27 and C28 carried over the relation |
| C140 | Ed25519: signing, `verify`, `verify_strict` | equations in the group of C139 |
| C141 | nothing new | C18, C23, C24 and C44 at the real primitives, their premises discharged by C140 |
| C142 | nothing new | C29, C59 and C105 at the real curve, from the laws of C139 |
| C143 | `EdwardsPoint::hash_from_bytes` (Elligator 2) with the case in which the library panics | squares by Euler's criterion; the map between the Montgomery and the Edwards form |
| C144 | the models of C68, C75, C77, C58 and C139 to C142 together, for `ed25519_strict` and `edwards25519` | composition; the sizes and non-degeneracy of real keys discharge the premises; `c144_well_formed` with C189 |
| C145 | the trie model of C07 to C13; reference `ref_run` in TrieSpec over the set of members and the length of the first key | the invariant of C07 for keys of at most n bytes of which none begins with another; induction over histories |
| C146 | the models of C37 and C49; LedgerSpec adds a list of accounts and the events between rounds | invariant: money of all accounts plus residue; for touching more often a relation between the two runs |
| C147 | the model of C58 and C59; BinomialSpec has the binomial distribution over the reals | Pascal's rule gives the distribution for one more trial, so it falls in trials and, by induction on the trials, in the probability; rounding keeps the order; a program over integers that rounds it correctly shows the premise can be met |
| C148 | the model of C58; BinomialSpec has averages over all hashes | the weight splits hashes at a threshold; its distance to the exact one is bounded by the rounding errors; the average is the sum over i of the shares above i, swapped with the sum over hashes; the mean of the distribution by induction |
| C149 | the models of C95 and C120 | the headers are those of the chain by C120, then C95 for the block |
| C150 | PrintModel: base 64, the report and the forms of rounds, amounts, keys and transaction identifiers | against PrintSpec (digits of a number in base 64, lines with titles); values have no line breaks, so lines can be cut |
| C151 | as C148, with `near_binomial eps` for the library | the weight is at most i iff the hash is at most the greatest of the first computed values, which is within eps of the exact one because exact values grow; then as C148 |
| C152 | the model of C01; ProofSizeSpec counts nodes of a binary tree without neighbours | positions stay sorted, so a node without neighbour is one that does not precede it; induction over levels |
| C153 | the model of C07 and the reference of C145; TrieSizeSpec lists the strings with which two members begin | the nodes with children correspond to these strings and the leaves to the members, one to one, by the disjointness in the invariant of C145 |
| C154 | the model of C58 and the distribution of C148; SplitSpec averages over the hashes of the accounts one after the other | one more trial is an operation on distribution functions that keeps distances; induction over the accounts, exchanging sums |
| C155 | the same, and the protocol table of C62; TailSpec names the committees | Chernoff's bound by induction over trials; one computation over the table gives the exponents |
| C156 | the models of C19 and C104 | a multisignature is determined by its keys and the signatures of its slots; both ways are unions |
| C157 | the model of C23 | the identifiers before which there is nothing left to delete only grow; the count follows from C23's description of the usable identifiers |
| C158 | the models of C37 and C39 | inequalities between quotients |
| C159 | the model of C37 and C146's sum of money | the sum of quotients is at most the quotient of the sum, and less by less than their number |
| C160 | the model of C02 | two climbs of one height read from the root downwards; a root with two readings as counterexample |
| C161 | `Block::with_seed`, `Block::seed`, `Block::digest` over the model of C55 | neither check reads the seed; the encoding of the header as in C56 |
| C162 | the models of C41, C42, C47 and C62 | from the conditions of C41, C42 and C47; the built-in table by computation |
| C163 | the models of C16 and C33 | which bits the characters and words hold |
| C164 | `Block::new` and `BlockHeader::pre_check` as in C53 and C55 | by cases over the two functions; a previous header with a count as counterexample |
| C165 | `MAX_NODE_SERIALIZED_SIZE`, and the nodes and their stored form as in C07 and C10 | invariant over histories: children of a node have distinct first bytes, so at most 256; lengths of variable length integers |
| C166 | the serialized form of accounts as in C99, `BalanceRecord`, `MAX_ENCODED_ACCOUNT_DATA_SIZE`, `AccountData::min_balance` as in C38 | sums of the lengths of encoded parts; what each part costs against its size; the table of protocols computed; a full account shows that the limit on minimum balances is needed |
| C168 | accounts and their serialized form as in C166, minimum balance as in C38 | each part of the encoding against the part of the minimum balance that it costs, for every row of the table of protocols |
| C167 | the serialized form of transactions as in C72, `is_well_formed` as in C42, `alive` as in C41 | sums of the lengths of encoded parts; the limits of the table of protocols by computation |
| C169 | the checks of C41 and C42, the table of C62 | monotone in the limits and features of a protocol; induction along upgrades, each step of the table computed |
| C170 | minimum balance as in C38, limits as in C166, the table of C62 | induction along upgrades, each step of the table computed |
| C171 | the genesis block of C71, the contents check of C57 and SHA-512/256 | unfolding for any table; the hash of the empty payset computed |
| C172 | chains of blocks as in C120, made by the node as in C53 | induction over the number of blocks, with the upgrade state of the genesis as invariant |
| C173 | credentials and their comparison as in C60 | induction over the history of comparisons with the priority at each place of the list as invariant; order facts from the order of numbers |
| C174 | as C173 | the least of more hashes is no greater; the loop for weight one computed |
| C175 | credentials as in C173; all tables of hash values, one per draw | any draw can be made first, so each draw is the least one equally often; tables with equal values are counted by induction |
| C176 | the trie model of C07; TrieCostSpec counts stored nodes that differ | each function leaves all identifiers outside a list alone, by induction over the key; after a root hash in the invariant of C145 no stored node is marked dirty, and hashing descends into dirty nodes only |
| C177 | the model of C07, with `reopen` for a new trie on the same storage | stores that give the same nodes give the same outcomes, by induction for each function; after a root hash in the invariant of C145 all cached nodes are what the storage says |
| C178 | the model of C68 and C75, with a list of deletions and restarts | invariant: memory and storage each are what some of the deletions made of the fresh keys, both including all that gave no error |
| C179 | all functions of the trie again with a count of the accesses that still succeed, and with what a failed call leaves | each piece simulates the piece of C07's model up to its number of accesses; tries from which the same nodes are read fail alike; a failing computation of hashes leaves a tree of the same shape and members, by induction |
| C180 | the announcement function over C122's chains | invariant along the chain: no upgrade pending, or one pending whose switch comes after its deadline and in the future; one step from each case |
| C181 | as C180 | from C180 and the lookup in the check of the header of the announced round; the counterexample is a chain of five headers |
| C182 | the check of transactions (C42) and the references (C65) together | from the two characterisations |
| C183 | as C47 and C48 | induction over the transactions with C47, uniqueness of the grouping (C48) |
| C184 | the derived readers of `SignedTxInBlock`, `SignedTxWithAD`, `ApplyData`, `EvalDelta`, `StateDelta` and `Payset` (`StibDecodeModel`) | induction over the nesting of inner transactions, reading of signed transactions from C103, of maps from C119; refuted by a witness |
| C185 | as C184 | what each reader gives, composed along the structure of the types (C126); induction over the nesting |
| C186 | as C184 | that a map carries values for names is stated as in C137, missing ones by what would complete it; both ways over the names; the fuel of the readers is shown not to matter |
| C187 | C183 and C184 composed | induction over the transactions; refuted by a witness in protocol V12 |
| C188 | the readers of C103 on both forms | both forms give the reader the same values of the fields; the converse by filling in what is missing |
| C189 | the models of C41, C42, C47 and C77 composed | composition of their exact characterizations; the protocols by computation over the table |
| C190 | the models of C17, C20, C42, C44 and C113 composed | the sender is fixed by C42; the strings begin differently (C30) |
| C191 | the model of C07, which truncates the length as the code does | an invariant over histories: the length remembered is below 2^32 |

## How the theorems were tested

`seeded/LOG.jsonl` has one line per wrong program. Each is an edit of one definition of the model in a scratch copy. There are two kinds.

- Edits chosen by hand, to break a named claim. Proofs that fail are replaced by `Admitted` in the scratch copy, and `theorems_failed` lists the theorems that then rest on such a proof. Often only the property files named for the edit were rebuilt, so other theorems may fail as well.
- Automatic edits (those whose text ends in a byte position): a changed operator, constant or condition. The run stops at the first lemma that fails, and `theorems_failed` names this lemma and not the property theorems above it. Failing `Example`s are passed over. Edits that do not type-check are left out.

What the log does not show:

- A failing proof shows that the proof script does not work for the edited definition. It does not by itself show that the statement became false. One hand-made edit (of `is_root_key_filename`) was found to leave the statement true and is marked so. The automatic edits that failed were not checked one by one for this.
- Automatic edits that no theorem noticed were classified by hand. Where the text says that only test vectors fail, no theorem covers the edit.
- The automatic edits were a sample, and the last run was stopped before its end.

## Trusted base

1. **Coq's kernel** (8.16.1), with its virtual machine for `vm_compute`; `coqchk`
   re-checks all compiled files.  No flag of the kernel is changed, nothing is
   admitted, there are no axioms, parameters or section-less variables of our own.
2. **What `Print Assumptions` lists.**  Every property theorem is followed by
   `Print Assumptions`.  For all of them the answer is `Closed under the global
   context`, except for the theorems about floating-point numbers, which use
   the real numbers of the standard library through Flocq:
   `c58_ratio`, `c58_monotone`, `c58_defined`, `c59_accepts_partial`, `c59_weight`,
   `c59_panics_partial`, `c59_own_credential`, `c142_own_credential`, `c144_lifetime`, `c144_well_formed`, `c147_*`, `c148_*`, `c151_*`, `c154_*`, `c155_*`, `c61_output_refuted`,
   `c61_output_partial`, `c61_members`; and for those about the default dilution,
   a rounded square root: `c82_default_dilution`, `c83_key_files_refuted`,
   `c83_key_files_partial`.
   These list exactly the standard library's
   `ClassicalDedekindReals.sig_not_dec`, `ClassicalDedekindReals.sig_forall_dec`,
   `FunctionalExtensionality.functional_extensionality_dep` and
   `Classical_Prop.classic`.
3. **The hand translation** from Rust to Gallina.  It cannot be checked by
   machine here; every definition cites file and lines so that it can be read
   side by side with the source.  As a check against slips, the model is run on
   the fixed inputs of the repository's own unit tests with the real hash, curve
   and signatures (`ShaModel.v`, `CurveModel.v`), and gives the answers the tests
   expect: `VrfVectors.v` (the three vectors of the VRF draft), `MultisigVectors.v`
   and `KnownAnswers.v` (trie roots computed by go-algorand, addresses, mnemonics,
   Merkle proofs, rewards, well-formedness of transactions).  These are tests: no
   theorem depends on them.
4. **The specifications** in `*Spec.v` and the theorem statements in `*Props.v`.

Hypotheses about external code are never axioms: they are premises of the
theorem that needs them, and an `Example` beside it shows an instance.

### Modelled

| source | modelled | left out |
|--------|----------|----------|
| `crypto/merklearray/*.rs` | all functions | `rayon` parallelism (maps and chunks are pure) |
| `crypto/merkletrie/{trie,node,cache,bitset}.rs` | all functions but printing | `print`, `print_node` |
| `crypto/merkletrie/storage.rs` | both storages and their sizes (the trie itself runs over the in-memory one) | failures of the `sled` database |
| `crypto/mnemonic.rs` | all conversions, error order, `load_mnemonic_file` | errors while reading an open file; zeroing of memory |
| `crypto/multisig.rs`, `crypto/batch_verifier.rs` | all functions | `ed25519_dalek` is a record of key derivation, signing and checking, with the real one in `CurveModel.v` (C140, C141) |
| `crypto/ots.rs` | all functions; the random generator is a stream of keys | the lock around the secrets |
| `crypto/vrf.rs` | all functions over an abstract group with the field codec of edwards25519 | theorems hold for any group with the laws of `curve_ok`; `CurveModel.v` has the real operations, for which C139 proves them; the limbs of `curve25519_dalek`, constant-time claims |
| `crypto/hashable.rs`, `data/basics/address.rs` | all functions, base 32 included | in the theorems SHA-512/256 is an arbitrary function to 32 bytes; `ShaModel.v` has the real one (C138) |
| `protocol/{hash,tags,codec}.rs` | all | `rmp_serde` is modelled as a reader of all of message-pack and a writer of the shapes used; its limit of 1024 nested values is left out |
| `protocol/consensus.rs`, `config/consensus.rs` | versions, the whole parameter table, `merge`, saving and loading the JSON file | allocation bounds |
| `config/keyfile.rs` | all functions | |
| `data/basics/{units,teal,user_balance}.rs` | all functions on amounts, rounds, schemas, deltas, account data, the hash of a balance record | |
| `data/transactions/*.rs` | all transaction types, their encoding, `is_well_formed`, signing, payset commitments, `wrap_signed_txs_with_ad`, `estimate_encoded_size`, `get_encoded_length` | evaluation of programs (not in the code) |
| `data/bookkeeping/{block,genesis}.rs` | all functions; loading of a genesis | the system clock is an argument |
| `data/committee/*.rs` | all functions | the binomial distribution of `statrs` and the correctly rounded ratio of `num-rational` are premises; see `CommitteeModel.v` |
| `data/account.rs`, `data/account_manager.rs` | all functions over a key-value store with crash points between writes | `Participation::Migrate` (commented out), `sled`'s own durability |
| `bin/algokey/*.rs` | the effect of each command on files and standard output; `sign` with decoding of the transaction an argument | parsing of the command line; the text printed around the values, except the report on a participation key (`PrintModel.v`); program signing, which is not in the code |
| `config/{mod,default}.rs` | all settings, their defaults, loading and saving, bootstrap names, flags, phonebook, the global configuration folder | `shellexpand::env` is an argument; a file that cannot be read is a missing file |
| `serde_json` (not in the repository) | the pretty printer and the reader for all JSON texts: objects, arrays, strings with all escapes, numbers, literals, the check for UTF-8, ignored values | the values of other numbers, which no setting accepts; its recursion limit, which does not apply to ignored values |
| derived `Deserialize` of `BlockHeader` and `Genesis` | structs from arrays and from maps by name, maps entry by entry, unit variants from their names | integers in place of names, which stand for the place of a field or variant; unit variants from maps |
| derived `Deserialize` of `Transaction` and `SignedTx` | from maps, the structs inside also from arrays, with flattening, defaults, duplicates and the internal tag | which error is given; integers in place of names; unit variants from maps |
| `data/signed_tx_group.rs`, `data/bookkeeping/tx_merkle.rs` | all functions | `SignedTxGroup` has none |
| `config/{version,buildvars}.rs` | no: not part of the build (`mod` lines are commented out) | |

Concurrency is modelled only for the folder of global configuration files (C133).
No other function of the library shares mutable state except through the locks of
the account manager and of the one-time signature secrets, whose critical sections
are the modelled functions.
