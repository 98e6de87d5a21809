(** The reserved sender of certificates: proofs. *)
From Verif Require Import Base BaseFacts Scheme TxModel TxSpec TxProofs DomainModel DomainProofs MultisigModel MultisigSpec MultisigProofs ExtrasModel CertSenderSpec.
Local Open Scope N_scope.

Lemma cert_sender H m spec proto t : limits_fit proto -> last_valid (tx_head t) < 2 ^ 64 - 1 -> is_certificate t -> is_well_formed H m spec proto t = Ok tt ->
  sender (tx_head t) = H cert_sender_string.
Proof.
  intros L V [c C] W. apply well_formed_lemma in W; [|exact L|exact V]. destruct W as ((F & _) & _). unfold fields_ok in F. rewrite C in F.
  destruct F as (_ & S & _). exact S.
Qed.
Lemma cert_multisig H m spec proto t sc ms msg : limits_fit proto -> last_valid (tx_head t) < 2 ^ 64 - 1 -> is_certificate t -> is_well_formed H m spec proto t = Ok tt ->
  verify H sc ms msg (sender (tx_head t)) = Ok true ->
  collision_in H [cert_sender_string] [address_string (MultisigModel.version ms) (threshold ms) (keys ms)].
Proof.
  intros L V C W E. assert (B : first_slot_not_blank ms).
  { intros B. rewrite verify_blank_lemma in E; [discriminate E|]. intros N. exact (N B). }
  apply verify_lemma in E; [|exact B]. destruct E as (_ & _ & _ & E & _). rewrite (cert_sender _ _ _ _ _ L V C W) in E.
  exists cert_sender_string, (address_string (MultisigModel.version ms) (threshold ms) (keys ms)). split; [left; reflexivity|]. split; [left; reflexivity|]. split; [|exact E].
  exact (multisig_domain_lemma SPECIAL_ADDR (str "CompactCertSender") _).
Qed.
Lemma cert_pks H m spec proto t v n pks : limits_fit proto -> last_valid (tx_head t) < 2 ^ 64 - 1 -> is_certificate t -> is_well_formed H m spec proto t = Ok tt ->
  from_pks H v n pks = Ok (sender (tx_head t)) -> collision_in H [cert_sender_string] [address_string v n pks].
Proof.
  intros L V C W E. unfold from_pks in E. destruct (negb (v =? 1)); [discriminate|]. destruct ((n =? 0) || _ || _); [discriminate|]. injection E as E.
  rewrite (cert_sender _ _ _ _ _ L V C W) in E.
  exists cert_sender_string, (address_string v n pks). split; [left; reflexivity|]. split; [left; reflexivity|]. split; [|symmetry; exact E].
  exact (multisig_domain_lemma SPECIAL_ADDR (str "CompactCertSender") _).
Qed.
Lemma cert_app H m spec proto t app : limits_fit proto -> last_valid (tx_head t) < 2 ^ 64 - 1 -> is_certificate t -> is_well_formed H m spec proto t = Ok tt ->
  app_address H app = sender (tx_head t) -> collision_in H [cert_sender_string] [app_string app].
Proof.
  intros L V C W E. rewrite (cert_sender _ _ _ _ _ L V C W) in E. exists cert_sender_string, (app_string app). split; [left; reflexivity|]. split; [left; reflexivity|]. split; [|symmetry; exact E].
  intros A. discriminate A.
Qed.
Lemma cert_signed H m spec proto t sc sk : limits_fit proto -> last_valid (tx_head t) < 2 ^ 64 - 1 -> is_certificate t -> is_well_formed H m spec proto t = Ok tt ->
  scheme_correct sc -> public sc sk <> zero32 -> authorizer (TxModel.sign sc sk t) = sender (tx_head t) <-> public sc sk = H cert_sender_string.
Proof.
  intros L V C W S Z. rewrite (proj1 (TxProofs.sign_lemma H sc sk t S Z)). rewrite (cert_sender _ _ _ _ _ L V C W). reflexivity.
Qed.
