(** Unit tests of the code with fixed inputs, run on the model with the hash the code uses.
    These are tests of the translation, not proofs about it. *)
From Verif Require Import Base MsgpackModel ShaModel Scheme DomainModel.
From Verif Require AddressModel MnemonicModel TrieModel ExtrasModel MerkleArrayModel BasicsModel ConsensusModel TxModel OtsModel BitsetModel.
From Coq Require Import String.
Local Open Scope list_scope.
Local Open Scope N_scope.

Definition H := sha512_256.

(** ** src/crypto/hashable.rs:96-123 *)
Example encode_decode : AddressModel.hash_from_str (AddressModel.hash_to_string (H (str "test"))) = Ok (H (str "test")).
Proof. vm_compute. reflexivity. Qed.
Example truncate_u64 : AddressModel.trim_to_u64 zero32 = 0 /\ AddressModel.trim_to_u64 (H (str "test")) = 9731538013166384957. (* 0x870d5e4358fe373d *)
Proof. vm_compute. split; reflexivity. Qed.

(** ** src/data/basics/address.rs:114-206 *)
Import AddressModel.
Definition short_addr : bytes := Eval vm_compute in H (str "randomString").
Definition short_addr_str : bytes := Eval vm_compute in address_to_string H short_addr.
Example unmarshall_checksum_address : address_from_str H short_addr_str = Ok short_addr. Proof. vm_compute. reflexivity. Qed.
Example too_short : address_from_str H [] = Err WrongLength. Proof. vm_compute. reflexivity. Qed.
Example wrong_checksum : address_from_str H (removelast short_addr_str ++ str "1") = Err InvalidBase32. Proof. vm_compute. reflexivity. Qed.
Example wrong_checksum_space : address_from_str H (removelast short_addr_str ++ str " ") = Err InvalidBase32. Proof. vm_compute. reflexivity. Qed.
Example wrong_address_add_char : address_from_str H (str "4" ++ short_addr_str) = Err InvalidBase32. Proof. vm_compute. reflexivity. Qed.
Example wrong_address_replace_char : address_from_str H (str "4" ++ tl short_addr_str) = Err InvalidChecksum. Proof. vm_compute. reflexivity. Qed.
Example wrong_address_invalid_char : address_from_str H (str " " ++ short_addr_str) = Err InvalidBase32. Proof. vm_compute. reflexivity. Qed.
Definition readable := str "J5YDZLPOHWB5O6MVRHNFGY4JXIQAYYM6NUJWPBSYBBIXH5ENQ4Z5LTJELU".
Definition non_canonical_text := str "J5YDZLPOHWB5O6MVRHNFGY4JXIQAYYM6NUJWPBSYBBIXH5ENQ4Z5LTJELV".
Example human_readable : (match address_from_str H readable with Ok a => address_to_string H a | _ => [] end) = readable.
Proof. vm_compute. reflexivity. Qed.
Example non_canonical : address_from_str H non_canonical_text = Err InvalidBase32. Proof. vm_compute. reflexivity. Qed.

(** ** src/data/basics/user_balance.rs:657-677 *)
Example app_index_hashing :
  ExtrasModel.app_rep 12 = str "appID" ++ [x00; x00; x00; x00; x00; x00; x00; x0c] /\
  ExtrasModel.app_rep (12 * 2 ^ 16) = str "appID" ++ [x00; x00; x00; x00; x00; x0c; x00; x00] /\
  address_to_string H (ExtrasModel.app_address H 77) = str "PCYUFPA2ZTOYWTP43MX2MOX2OWAIAXUDNC2WFCXAGMRUZ3DYD6BWFDL5YM".
Proof. vm_compute. repeat split; reflexivity. Qed.

(** ** src/crypto/mnemonic.rs:197-294 *)
Definition word (s : string) : MnemonicModel.text := map Byte.to_N (list_byte_of_string s).
Example zero_vector : MnemonicModel.key_to_mnemonic H (repeat x00 32) = Some (repeat (word "abandon") 24 ++ [word "invest"]).
Proof. vm_compute. reflexivity. Qed.
Example wrong_mnemonic_length :
  map (fun n => MnemonicModel.mnemonic_to_key H (repeat (word "abandon") n)) [0; 24; 26; 1000]%nat =
  map (fun n => Err (MnemonicModel.WrongMnemonicLen n)) [0; 24; 26; 1000]%nat.
Proof. vm_compute. reflexivity. Qed.
(** As written this test passes 24 + 1 words: 23 of them "abandon", "zzz" and "invest". *)
Example word_not_in_list :
  MnemonicModel.mnemonic_to_key H (repeat (word "abandon") 23 ++ [word "zzz"; word "invest"]) = Err (MnemonicModel.InvalidWordInMnemonic (word "zzz")).
Proof. vm_compute. reflexivity. Qed.
Definition any_key : bytes := Eval vm_compute in H (str "any").
Definition any_words : list MnemonicModel.text := Eval vm_compute in match MnemonicModel.key_to_mnemonic H any_key with Some l => l | None => [] end.
Example generate_and_recover : List.length any_words = 25%nat /\ MnemonicModel.mnemonic_to_key H any_words = Ok any_key.
Proof. vm_compute. split; reflexivity. Qed.
Definition other_checksums : bool := Eval vm_compute in
  forallb (fun w => if MnemonicModel.text_eqb w (last any_words []) then true else
    match MnemonicModel.mnemonic_to_key H (removelast any_words ++ [w]) with Err MnemonicModel.WrongChecksum => true | _ => false end)
    (firstn 200 MnemonicModel.WORDS).
Example invalid_checksum : other_checksums = true. Proof. reflexivity. Qed.

(** ** src/crypto/merkletrie/trie.rs:179-219 *)
Fixpoint roots (l : list bytes) (t : TrieModel.trie) : list bytes :=
  match l with
  | [] => []
  | d :: r =>
      match TrieModel.add Debug d t with
      | Ok (_, t) => match TrieModel.root_hash H t with Ok (h, t) => hash_to_string h :: roots r t | _ => [] end
      | _ => []
      end
  end.
Definition trie_roots : list bytes := Eval vm_compute in
  roots [H [x00]; H [x01]; H [x02]; H [x03]; x05 :: tl (H [x04])] TrieModel.new_trie.
Example go_compatibility : trie_roots =
  [str "ZZLO4PKXJPOWHFV2BECUMB6FOWJMX73AHJTPWXE5Q4D42PHAQB3Q";
   str "YBK7KNS6ZAXRCP2IBCYP3ALTTMGW7AIZUPC4NK3SBMYL4DAH6YKQ";
   str "JF2ICIVIQ42MIBPODQZVBADT43WYF47VTDXV2BTHSMO4DLOIEQXQ";
   str "GEEOOP2Q6TG46OWIHNYX2R6TKHJ64SMZBKFWA4DPFK7B2W2OPCLQ";
   str "UOT7QFKDJKXHMKESLG2L2YRHVTBIOP7NMCZUKAYBDRAWPMEPERHQ"].
Proof. reflexivity. Qed.

(** ** src/crypto/merklearray/merkle.rs:202-281 *)
Definition digits (n : nat) : bytes := if (n <? 10)%nat then [b8 (48 + N.of_nat n)] else [b8 (48 + N.of_nat (n / 10)); b8 (48 + N.of_nat (n mod 10))].
Definition element (n : nat) : bytes := hash_rep MESSAGE (str "test" ++ digits n).
Definition junk : bytes := H (hash_rep MESSAGE (str "junk")).
Definition accepted (o : option (outcome unit unit)) : bool := match o with Some (Ok _) => true | _ => false end.
Definition full_test_of (size : nat) : bool :=
  let a := map element (seq 0 size) in
  match MerkleArrayModel.from_array H a with
  | Some tree =>
      match MerkleArrayModel.root tree with
      | Ok r =>
          let hs := map H a in
          forallb (fun i =>
            match MerkleArrayModel.prove H tree [N.of_nat i] with
            | Ok proof =>
                accepted (MerkleArrayModel.verify H r [(N.of_nat i, nth i hs [])] proof) &&
                negb (accepted (MerkleArrayModel.verify H r [(N.of_nat i, junk)] proof))
            | _ => false
            end) (seq 0 size) &&
          match MerkleArrayModel.prove H tree (map N.of_nat (seq 0 size)) with
          | Ok proof =>
              accepted (MerkleArrayModel.verify H r (combine (map N.of_nat (seq 0 size)) hs) proof) &&
              negb (accepted (MerkleArrayModel.verify H r [(0, junk)] proof)) &&
              negb (accepted (MerkleArrayModel.verify H r [(0, junk)] []))
          | _ => false
          end &&
          match MerkleArrayModel.prove H tree [N.of_nat size] with Err _ => true | _ => false end &&
          negb (accepted (MerkleArrayModel.verify H r [(N.of_nat size, junk)] []))
      | _ => false
      end
  | None => false
  end.
Definition full_tests : list bool := Eval vm_compute in map full_test_of [0; 1; 2; 3; 4; 8; 16]%nat.
Example full_test : forallb (fun b => b) full_tests = true. Proof. reflexivity. Qed.

(** ** src/data/basics/units.rs:107-129 *)
Example subtraction : BasicsModel.sub_capped 1 2 = 0 /\ BasicsModel.sub_capped 1 1 = 0 /\ BasicsModel.sub_capped 2 1 = 1.
Proof. vm_compute. repeat split; reflexivity. Qed.
Example rounding :
  forallb (fun n => match BasicsModel.round_up_to_multiple_of Debug 24 n with
                    | Some m => (24 <=? m) && (m mod n =? 0) && (if n <? 24 then m - n <? 24 else true)
                    | None => false end) (map N.of_nat (seq 1 99)) = true.
Proof. vm_compute. reflexivity. Qed.

(** ** src/data/basics/user_balance.rs:568-633 *)
Definition current : ConsensusModel.params :=
  match ConsensusModel.lookup ConsensusModel.CURRENT_CONSENSUS_VERSION ConsensusModel.built_in with Some p => p | None => ConsensusModel.v7_base end.
Definition online (algos base rewarded : N) : BasicsModel.account :=
  BasicsModel.mkAccount BasicsModel.Online algos base rewarded [] [] 0 0 0 [] [] [] [] [] (BasicsModel.mkSchema 0 0) 0.
Definition units (algos : N) : N := match BasicsModel.reward_units current algos with Some u => u | None => 0 end.
Example rewards :
  forallb (fun algos => forallb (fun level =>
      match BasicsModel.money Debug current (online algos 100 25) (100 + level) with
      | Some (money, rewards) => (money =? algos + level * units algos) && (rewards =? 25 + level * units algos)
      | None => false
      end) [0; 1; 30; 3000]) [0; 8000; 13000; 83000] = true.
Proof. vm_compute. reflexivity. Qed.
Example with_updated_rewards_overflow : BasicsModel.with_updated_rewards Debug current (online (2 ^ 64 - 1) 0 0) 100 = None.
Proof. vm_compute. reflexivity. Qed.
Example with_updated_rewards_wrapping :
  match BasicsModel.with_updated_rewards Debug current (online 80000000 0 (2 ^ 64 - 1)) 100 with
  | Some b => BasicsModel.rewarded_micro_algos b =? 100 * units 80000000 - 1
  | None => false
  end = true.
Proof. vm_compute. reflexivity. Qed.

(** ** src/data/transactions/tests.rs:46-254 *)
Definition addr1 : bytes := Eval vm_compute in
  match address_from_str H (str "NDQCJNNY5WWWFLP4GFZ7MEF2QJSMZYK6OWIV2AQ7OMAVLEFCGGRHFPKJJA") with Ok a => a | _ => [] end.
Definition fee_sink : bytes := map b8
  [7; 218; 203; 75; 109; 158; 209; 65; 177; 117; 118; 189; 69; 154; 230; 66; 29; 72; 109; 163; 212; 239; 34; 71; 196; 9; 163; 150; 184; 46; 162; 33].
Definition special := TxModel.mkSpecial fee_sink zero32.
Definition well_formed (p : ConsensusModel.params) (t : TxModel.transaction) : bool :=
  match TxModel.is_well_formed H Debug special p t with Ok _ => true | _ => false end.
Definition go_nonparticipating : TxModel.transaction :=
  TxModel.mkTx (TxModel.mkTxHeader addr1 (ConsensusModel.min_tx_fee current) 1 300 (str "0123456789") [] zero32 zero32 zero32 zero32)
    (TxModel.Keyreg (TxModel.mkKeyreg default_key zero32 0 0 0 true)).
Definition contradiction : TxModel.transaction :=
  TxModel.mkTx (TxModel.tx_head go_nonparticipating)
    (TxModel.Keyreg (TxModel.mkKeyreg (repeat x07 32) (repeat x08 32) 0 0 0 true)).
Example go_online_go_nonparticipating_contradiction : well_formed current contradiction = false. Proof. vm_compute. reflexivity. Qed.
Example go_nonparticipating_well_formed :
  ConsensusModel.support_become_non_participating_transactions current = true /\
  well_formed current go_nonparticipating = true /\
  well_formed (ConsensusModel.set_support_become_non_participating_transactions false current) go_nonparticipating = false.
Proof. vm_compute. repeat split; reflexivity. Qed.
Definition future : ConsensusModel.params :=
  match ConsensusModel.lookup ConsensusModel.Future ConsensusModel.built_in with Some p => p | None => ConsensusModel.v7_base end.
Definition app_create (pages : N) : TxModel.transaction :=
  TxModel.mkTx (TxModel.mkTxHeader addr1 1000 100 105 [] [] zero32 zero32 zero32 zero32)
    (TxModel.AppCall (TxModel.mkAppCall 0 TxModel.NoOpOC [str "write"] [] [] [] (BasicsModel.mkSchema 0 0) (BasicsModel.mkSchema 0 0) [] [] pages)).
Example app_call_create_well_formed :
  well_formed current (app_create 0) = true /\ well_formed future (app_create 3) = true /\ well_formed future (app_create 0) = true.
Proof. vm_compute. repeat split; reflexivity. Qed.
