(** Stored sizes of accounts: src/data/basics/user_balance.rs. *)
From Verif Require Import Base MsgpackModel BasicsModel IdsModel.
Local Open Scope N_scope.

(** src/data/basics/user_balance.rs:38-40; documented, not used by the code *)
Definition MAX_ENCODED_ACCOUNT_DATA_SIZE : N := 850000.
(** src/data/basics/user_balance.rs:537-542 with the derived serialization, as an array of the two fields *)
Definition balance_record_value (addr : bytes) (a : account_data) : value := VArr [VBin addr; account_data_value a].
(** The account as in BasicsModel, which keeps only the keys of the maps. src/data/basics/user_balance.rs:93-192 *)
Definition as_account (a : account_data) : account :=
  mkAccount (ad_status a) (ad_algos a) (ad_rewards_base a) (ad_rewarded a) (ad_vote_id a) (ad_selection_id a) (ad_vote_first a) (ad_vote_last a) (ad_dilution a)
    (map fst (ad_asset_params a)) (map fst (ad_assets a)) (ad_auth a) (map fst (ad_locals a)) (map fst (ad_apps a)) (ad_schema a) (ad_pages a).
