From Verif Require Import Base BaseFacts DomainModel.

Lemma domains_lemma i j d d' : hash_rep i d = hash_rep j d' -> i = j /\ d = d'.
Proof.
  unfold hash_rep. destruct i, j; cbn [id_bytes]; intros E; try discriminate E;
    (split; [reflexivity|]); apply app_inv_head in E; exact E.
Qed.

Lemma multisig_domain_lemma i d d' : hash_rep i d <> MULTISIG_ADDRESS_PREFIX ++ d'.
Proof. unfold hash_rep. destruct i; cbn [id_bytes]; intros E; discriminate E. Qed.

Lemma tag_length t : length (tag_bytes t) = 2.
Proof. destruct t; reflexivity. Qed.

Lemma tags_lemma t u d d' : tag_bytes t ++ d = tag_bytes u ++ d' -> t = u /\ d = d'.
Proof.
  destruct t, u; cbn [tag_bytes]; intros E; try discriminate E;
    (split; [reflexivity|]); apply app_inv_head in E; exact E.
Qed.

Lemma no_comma t : ~ In x2c (tag_bytes t).
Proof. destruct t; cbn; intros [E|[E|[]]]; discriminate. Qed.
