(** Properties C30 and C31: hash domains and message tags. *)
From Verif Require Import Base Toy DomainModel DomainProofs.

(** C30.  The string that is hashed determines the kind of value and its data. *)
Theorem c30_domains_disjoint :
  forall i j data data', hash_rep i data = hash_rep j data' -> i = j /\ data = data'.
Proof. exact domains_lemma. Qed.
Print Assumptions c30_domains_disjoint.

(** The one prefix used outside the list does not meet any of them either. *)
Theorem c30_multisig_addresses_apart :
  forall i data data', hash_rep i data <> MULTISIG_ADDRESS_PREFIX ++ data'.
Proof. exact multisig_domain_lemma. Qed.
Print Assumptions c30_multisig_addresses_apart.

Example c30_case :
  hash_rep TRANSACTION (str "abc") = str "TXabc" /\ hash_rep APP_INDEX [] <> hash_rep AUCTION_BID [].
Proof. split; [reflexivity|discriminate]. Qed.

(** C31.  Tags have two bytes and the first two bytes of a message tell its kind. *)
Theorem c31_two_bytes : forall t, length (tag_bytes t) = 2.
Proof. exact tag_length. Qed.
Print Assumptions c31_two_bytes.

Theorem c31_tag_determined :
  forall t u payload payload', tag_bytes t ++ payload = tag_bytes u ++ payload' -> t = u /\ payload = payload'.
Proof. exact tags_lemma. Qed.
Print Assumptions c31_tag_determined.

(** Tags can be listed with commas between them. *)
Theorem c31_no_comma : forall t, ~ In x2c (tag_bytes t).
Proof. exact no_comma. Qed.
Print Assumptions c31_no_comma.

Example c31_case : tag_bytes TX ++ str "body" = str "TXbody" /\ tag_bytes PING <> tag_bytes PING_REPLY.
Proof. split; [reflexivity|discriminate]. Qed.
