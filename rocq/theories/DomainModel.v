(** Hash domain prefixes and network message tags. *)
From Verif Require Import Base.

(** One constructor per [HashID] constant, src/protocol/hash.rs:10-43 *)
Inductive hash_id :=
| APP_INDEX | AUCTION_BID | AUCTION_DEPOSIT | AUCTION_OUTCOMES | AUCTION_PARAMS
| AUCTION_SETTLEMENT | COMPACT_CERT_COIN | COMPACT_CERT_PART | COMPACT_CERT_SIG
| AGREEMENT_SELECTOR | BLOCK_HEADER | BALANCE_RECORD | CREDENTIAL | GENESIS
| MERKLE_ARRAY_NODE | MESSAGE | NET_PRIO_RESPONSE | ONE_TIME_SIG_KEY1 | ONE_TIME_SIG_KEY2
| PAYSET_FLAT | PAYLOAD | PROGRAM | PROGRAM_DATA | PROPOSER_SEED | SEED | SPECIAL_ADDR
| SIGNED_TX_IN_BLOCK | TEST_HASHABLE | TX_GROUP | TX_MERKLE_LEAF | TRANSACTION | VOTE.

(** src/protocol/hash.rs:10-43 *)
Definition id_bytes (i : hash_id) : bytes :=
  match i with
  | APP_INDEX => str "appID"
  | AUCTION_BID => str "aB"
  | AUCTION_DEPOSIT => str "aD"
  | AUCTION_OUTCOMES => str "aO"
  | AUCTION_PARAMS => str "aP"
  | AUCTION_SETTLEMENT => str "aS"
  | COMPACT_CERT_COIN => str "ccc"
  | COMPACT_CERT_PART => str "ccp"
  | COMPACT_CERT_SIG => str "ccs"
  | AGREEMENT_SELECTOR => str "AS"
  | BLOCK_HEADER => str "BH"
  | BALANCE_RECORD => str "BR"
  | CREDENTIAL => str "CR"
  | GENESIS => str "GE"
  | MERKLE_ARRAY_NODE => str "MA"
  | MESSAGE => str "MX"
  | NET_PRIO_RESPONSE => str "NPR"
  | ONE_TIME_SIG_KEY1 => str "OT1"
  | ONE_TIME_SIG_KEY2 => str "OT2"
  | PAYSET_FLAT => str "PF"
  | PAYLOAD => str "PL"
  | PROGRAM => str "Program"
  | PROGRAM_DATA => str "prog_data"
  | PROPOSER_SEED => str "PS"
  | SEED => str "SD"
  | SPECIAL_ADDR => str "special_addr"
  | SIGNED_TX_IN_BLOCK => str "STIB"
  | TEST_HASHABLE => str "TE"
  | TX_GROUP => str "TG"
  | TX_MERKLE_LEAF => str "TL"
  | TRANSACTION => str "TX"
  | VOTE => str "VO"
  end.

(** src/crypto/hashable.rs:35-38, [to_be_hashed] having returned [(i, data)] *)
Definition hash_rep (i : hash_id) (data : bytes) : bytes := id_bytes i ++ data.

(** src/crypto/multisig.rs:68: the prefix of the preimage of a multisignature address, a
    constant of that file which is not among the [HashID]s *)
Definition MULTISIG_ADDRESS_PREFIX : bytes := str "MultisigAddr".

(** One constructor per [Tag] constant, src/protocol/tags.rs:12-27 *)
Inductive tag :=
| UNKNOWN_MSG | AGREEMENT_VOTE | COMPACT_CERT_SIG_MSG | MSG_OF_INTEREST | MSG_DIGEST_SKIP
| NET_PRIO_RESPONSE_MSG | PING | PING_REPLY | PROPOSAL_PAYLOAD | TOPIC_MSG_RESP | TX
| UNI_CATCHUP_REQ | UNI_ENS_BLOCK_REQ | VOTE_BUNDLE.

(** src/protocol/tags.rs:12-27 *)
Definition tag_bytes (t : tag) : bytes :=
  match t with
  | UNKNOWN_MSG => str "??"
  | AGREEMENT_VOTE => str "AV"
  | COMPACT_CERT_SIG_MSG => str "CS"
  | MSG_OF_INTEREST => str "MI"
  | MSG_DIGEST_SKIP => str "MS"
  | NET_PRIO_RESPONSE_MSG => str "NP"
  | PING => str "pi"
  | PING_REPLY => str "pj"
  | PROPOSAL_PAYLOAD => str "PP"
  | TOPIC_MSG_RESP => str "TS"
  | TX => str "TX"
  | UNI_CATCHUP_REQ => str "UC"
  | UNI_ENS_BLOCK_REQ => str "UE"
  | VOTE_BUNDLE => str "VB"
  end.
