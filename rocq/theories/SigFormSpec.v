(** Vocabulary for the forms in which signed transactions and signatures can be given. *)
From Coq Require Import String.
From Verif Require Import Base MsgpackModel AddressModel TxModel TxDecodeSpec DecodedSpec NamedSpec.
Local Open Scope list_scope.
Local Open Scope N_scope.

(** A struct with these fields has these values: in an array at their places, where those may be missing at the end whose
    names and values are among the [trailing]; in a map at their names, where those may be missing that are among the [optional]. *)
Definition struct_gives (names : list string) (trailing optional : list (string * value)) (values : list value) (v : value) : Prop :=
  length values = length names /\
  ((exists l missing, v = VArr l /\ values = l ++ missing /\ Forall (fun e => In e trailing) (skipn (length l) (combine names values))) \/
   (exists l missing, v = VMap l /\ carries names values (l ++ missing) /\
      Forall (fun e => exists n d, In (n, d) optional /\ e = (VStr (str n), d)) missing)).

(** The names of the fields in the source, and what may be missing. *)
Definition signed_names : list string := ["sig"; "msig"; "lsig"; "tx"; "auth_addr"]%string.
Definition signed_trailing : list (string * value) := [("auth_addr"%string, VBytes zero32)].
Definition signed_optional : list (string * value) := [("msig"%string, VNil); ("lsig"%string, VNil); ("auth_addr"%string, VBytes zero32)].
Definition signed_given : list value -> value -> Prop := struct_gives signed_names signed_trailing signed_optional.
Definition subsig_given : list value -> value -> Prop := struct_gives ["key"; "sig"]%string [] [("sig"%string, VNil)].
Definition multisig_names : list string := ["version"; "threshold"; "subsigs"]%string.
Definition lsig_names : list string := ["logic"; "sig"; "msig"; "args"]%string.

(** The values of the fields of a signed transaction, with nothing for a signature that is not there. *)
Definition signed_fields (s : signed_tx) : list value :=
  [VBytes (stx_sig s); match stx_msig s with Some m => multisig_value m | None => VNil end;
   match stx_lsig s with Some l => lsig_value l | None => VNil end; tx_value (stx_tx s); VBytes (stx_auth s)].
(** A signed transaction as it exists in memory, with whichever signatures. *)
Definition signed_in_memory (valid_key valid_sig : bytes -> bool) (s : signed_tx) : Prop :=
  (length (stx_sig s) = 64%nat /\ valid_sig (stx_sig s) = true) /\
  (forall m, stx_msig s = Some m -> msig_in_memory valid_key valid_sig m) /\
  (forall l, stx_lsig s = Some l -> length (lsig_sig l) = 64%nat /\ valid_sig (lsig_sig l) = true /\ msig_in_memory valid_key valid_sig (lsig_msig l)) /\
  in_memory valid_key (stx_tx s) /\ h32 (stx_auth s).
