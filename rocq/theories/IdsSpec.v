(** Vocabulary for identifiers and hashes. *)
From Coq Require Import Permutation.
From Verif Require Import Base IdsModel BlockSpec TxCodecSpec.
Local Open Scope N_scope.

(** ** C95, C96 *)
(** The block has transaction [t] at position [p], with the signatures and effects recorded in [s]. *)
Definition contains (table : list (version * params)) (b : block) (p : N) (t : transaction) (s : signed_tx_in_block) : Prop :=
  exists s0 st ad, nth_error (payset b) (N.to_nat p) = Some s0 /\ decode_signed_tx table (head b) s0 = Ok (st, ad) /\
    stx_tx st = t /\ stib_tx s0 = stib_tx s.
(** The string hashed for a leaf: the transaction's identifier and the hash of its in-block form. *)
Definition leaf_string (H : bytes -> bytes) (t : transaction) (s : signed_tx_in_block) : bytes :=
  str "TL" ++ H (tx_hash_rep t) ++ H (stib_hash_rep s).
Definition claim_strings (H : bytes -> bytes) (c : N * (transaction * signed_tx_in_block)) : list bytes :=
  [tx_hash_rep (fst (snd c)); stib_hash_rep (snd (snd c)); leaf_string H (fst (snd c)) (snd (snd c))].
(** What a verifier is given for a claim: position and hash of the leaf. *)
Definition claim_item (H : bytes -> bytes) (c : N * (transaction * signed_tx_in_block)) : N * bytes :=
  (fst c, H (leaf_string H (fst (snd c)) (snd (snd c)))).

(** ** C97 *)
Definition signed_fits (s : signed_tx) : Prop := signed_shape s /\ wf (signed_tx_value s).

(** ** C99, C100 *)
(** Numbers of 64 bits, strings and lists shorter than 2^32. *)
Definition genesis_fits (g : genesis) : Prop := wf (genesis_value g).
(** Equality of maps whose values are compared by [R]: same entries in any order. *)
Definition same_entries {K V} (R : V -> V -> Prop) (a b : list (K * V)) : Prop :=
  exists c, Permutation a c /\ Forall2 (fun x y => fst x = fst y /\ R (snd x) (snd y)) c b.
Definition same_local (a b : app_local) : Prop := al_schema a = al_schema b /\ Permutation (al_values a) (al_values b).
Definition same_app (a b : app_params) : Prop :=
  ap_approval a = ap_approval b /\ ap_clear a = ap_clear b /\ Permutation (ap_state a) (ap_state b) /\
  ap_local a = ap_local b /\ ap_global a = ap_global b /\ ap_pages a = ap_pages b.
Definition same_account (a b : account_data) : Prop :=
  ad_status a = ad_status b /\ ad_algos a = ad_algos b /\ ad_rewards_base a = ad_rewards_base b /\ ad_rewarded a = ad_rewarded b /\
  ad_vote_id a = ad_vote_id b /\ ad_selection_id a = ad_selection_id b /\ ad_vote_first a = ad_vote_first b /\
  ad_vote_last a = ad_vote_last b /\ ad_dilution a = ad_dilution b /\
  Permutation (ad_asset_params a) (ad_asset_params b) /\ Permutation (ad_assets a) (ad_assets b) /\ ad_auth a = ad_auth b /\
  same_entries same_local (ad_locals a) (ad_locals b) /\ same_entries same_app (ad_apps a) (ad_apps b) /\
  ad_schema a = ad_schema b /\ ad_pages a = ad_pages b.
Definition same_allocation (a b : allocation) : Prop :=
  alloc_address a = alloc_address b /\ alloc_comment a = alloc_comment b /\ same_account (alloc_state a) (alloc_state b).
(** The same genesis: equal, where the order of the entries of a map does not count. *)
Definition same_genesis (g g' : genesis) : Prop :=
  schema_id g = schema_id g' /\ network g = network g' /\ proto g = proto g' /\
  Forall2 same_allocation (allocations g) (allocations g') /\ g_rewards_pool g = g_rewards_pool g' /\ g_fee_sink g = g_fee_sink g' /\
  g_timestamp g = g_timestamp g' /\ g_comment g = g_comment g' /\ dev_mode g = dev_mode g'.
(** Accounts with no map of more than one entry. *)
Definition plain_account (a : account_data) : Prop :=
  (length (ad_asset_params a) <= 1)%nat /\ (length (ad_assets a) <= 1)%nat /\ (length (ad_locals a) <= 1)%nat /\ (length (ad_apps a) <= 1)%nat /\
  Forall (fun e => length (al_values (snd e)) <= 1)%nat (ad_locals a) /\ Forall (fun e => length (ap_state (snd e)) <= 1)%nat (ad_apps a).
