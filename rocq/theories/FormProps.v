(** C124 and C125. *)
From Verif Require Import Base Toy Scheme MsgpackModel FormSpec FormProofs OtsModel AccountModel AccountSpec AccountProofs AccountProps RestoreProofs.
Local Open Scope N_scope.

(** C124.  Reading accepts exactly the strings that begin with a form of a value in the message-pack format, and gives that value. *)
Theorem c124_reading :
  forall s v, decode s = Some v <-> exists b rest, form v b /\ s = b ++ rest.
Proof. exact decode_form. Qed.
Print Assumptions c124_reading.
(** No string begins with forms of two values, or with two forms of one. *)
Theorem c124_unambiguous :
  forall v v' b b' rest rest', form v b -> form v' b' -> b ++ rest = b' ++ rest' -> v = v' /\ b = b' /\ rest = rest'.
Proof. exact form_unambiguous. Qed.
Print Assumptions c124_unambiguous.
(** What is written is a form of the value, and no form of it is shorter. *)
Theorem c124_written :
  forall v, wf v -> form v (encode v).
Proof. exact encode_form. Qed.
Print Assumptions c124_written.
Theorem c124_shortest :
  forall v b, form v b -> (length (encode v) <= length b)%nat.
Proof. exact (proj1 shortest_all). Qed.
Print Assumptions c124_shortest.
(** Everything that can be read can be written and read again. *)
Theorem c124_again :
  forall s v, decode s = Some v -> wf v /\ decode (encode v) = Some v /\ (length (encode v) <= length s)%nat.
Proof. exact decode_lemma. Qed.
Print Assumptions c124_again.
Example c124_example : decode [x93; xcd; x00; x05; xd0; xfe; xd9; x01; x61; xff] = Some (VArr [VInt 5; VInt (-2); VStr [x61]]) /\
  form (VArr [VInt 5; VInt (-2); VStr [x61]]) [x93; xcd; x00; x05; xd0; xfe; xd9; x01; x61] /\
  encode (VArr [VInt 5; VInt (-2); VStr [x61]]) = [x93; x05; xfe; xa1; x61] /\ decode [xc1] = None /\ decode [x92; x01] = None /\
  decode [xca; x3f; x80; x00; x00] = Some (VFloat [x3f; x80; x00; x00]) /\ decode [xd5; x07; x01; x02] = Some (VExt x07 [x01; x02]) /\
  decode [xc7; x02; x07; x01; x02] = Some (VExt x07 [x01; x02]) /\ encode (VExt x07 [x01; x02]) = [xd5; x07; x01; x02].
Proof.
  split; [vm_compute; reflexivity|]. split; [|repeat split; vm_compute; reflexivity].
  apply (form_arr [x93] [VInt 5; VInt (-2); VStr [x61]] [xcd; x00; x05; xd0; xfe; xd9; x01; x61]); [exact (announces_short 144 16 _ 3 ltac:(lia))|].
  apply (forms_cons (VInt 5) _ [xcd; x00; x05] [xd0; xfe; xd9; x01; x61]); [apply (form_unsigned xcd [x00; x05]); cbn; tauto|].
  apply (forms_cons (VInt (-2)) _ [xd0; xfe] [xd9; x01; x61]); [apply (form_signed xd0 [xfe]); cbn; tauto|].
  apply (forms_cons (VStr [x61]) [] [xd9; x01; x61] []); [|constructor].
  apply (form_str [xd9; x01] [x61]). apply (announces_long 160 32 _ xd9 [x01]). cbn. tauto.
Qed.

(** C125.  A restored participation has the owner, the rounds and the dilution that the key store holds, and keys and
    signatures of the right sizes. *)
Theorem c125_participation :
  forall sc is_point st p, restore sc is_point st = Ok p ->
  st (str "part-parent") = Some (parent p) /\
  (exists s, st (str "part-first_valid") = Some s /\ length s = 8%nat /\ big s = part_first p) /\
  (exists s, st (str "part-last_valid") = Some s /\ length s = 8%nat /\ big s = part_last p) /\
  (exists s, st (str "part-key_dilution") = Some s /\ length s = 8%nat /\ big s = part_dilution p) /\
  st (str "part-vrf") <> None /\ st (str "part-voting") <> None /\ part_ok sc is_point p.
Proof. exact restored_lemma. Qed.
Print Assumptions c125_participation.
(** Whatever was restored can be stored anywhere and restored again. *)
Theorem c125_again :
  forall sc is_point st st' p, restore sc is_point st = Ok p -> restore sc is_point (fst (persist sc st' p None)) = Ok p.
Proof. exact again_lemma. Qed.
Print Assumptions c125_again.
(** A restored root is a key pair of 64 bytes with a valid public half; it is reported missing exactly if it is; there is no panic. *)
Theorem c125_root :
  forall is_point st,
  (forall kp, root_restore is_point st = Ok kp -> length kp = 64%nat /\ is_point (skipn 32 kp) = true) /\
  (root_restore is_point st = Err NotFound <-> st (str "root") = None) /\ root_restore is_point st <> Panic.
Proof. exact root_lemma. Qed.
Print Assumptions c125_root.
Example c125_example : restore ex_scheme any_point (fst (persist ex_scheme empty_store ex_p None)) = Ok ex_p /\ part_first ex_p = 1005 /\
  fst (persist ex_scheme empty_store ex_p None) (str "part-first_valid") = Some [x00; x00; x00; x00; x00; x00; x03; xed] /\ big [x00; x00; x00; x00; x00; x00; x03; xed] = 1005 /\
  root_restore any_point empty_store = Err NotFound /\ root_restore any_point (insert empty_store (str "root") (encode (VBin (repeat x07 63)))) = Err DecodeError.
Proof. split; [exact c70_persisted_case|]. repeat split; vm_compute; reflexivity. Qed.
