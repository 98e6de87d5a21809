(** Model of src/crypto/ots.rs.  Random key generation is an argument: each fresh key
    pair is given by its secret.  The lock is not modelled; calls are sequential. *)
From Verif Require Import Base MsgpackModel.
From Verif Require Export Scheme.
Local Open Scope N_scope.

(** src/crypto/ots.rs:30-49; [_pk_sig_old] is always zero and left out *)
Record ots := mkOts { o_sig : bytes; o_pk : bytes; o_pk2 : bytes; o_pk1_sig : bytes; o_pk2_sig : bytes }.

(** src/crypto/ots.rs:54-61 *)
Record identifier := mkId { batch : N; offset : N }.

(** src/crypto/ots.rs:357-363: the key pair is its secret *)
Record subkey := mkSubkey { secret : bytes; pk_sig_new : bytes }.

(** src/crypto/ots.rs:88-110 *)
Record secrets := mkSecrets {
  verifier : bytes;
  first_batch : N;
  batches : list subkey;
  first_offset : N;
  offsets : list subkey;
  offsets_pk2 : bytes;
  offsets_pk2_sig : bytes
}.

(** src/crypto/ots.rs:64-68,344-348 with src/crypto/hashable.rs:35-38: the string signed
    for a batch key.  Public keys serialize as a binary string. *)
Definition batch_id_rep (pk : bytes) (b : N) : bytes :=
  str "OT1" ++ encode (VArr [VBin pk; VNum b]).
(** src/crypto/ots.rs:72-77,350-354 *)
Definition offset_id_rep (pk : bytes) (b off : N) : bytes :=
  str "OT2" ++ encode (VArr [VBin pk; VNum b; VNum off]).

(** src/crypto/ots.rs:119-133: batch keys from the fresh secrets; [None] is the overflow
    panic of [start_batch + i] *)
Fixpoint make_batches (sc : scheme) (md : mode) (master : bytes) (start i : N) (eks : list bytes)
  : option (list subkey) :=
  match eks with
  | [] => Some []
  | e :: r =>
      match add64 md start i with
      | None => None
      | Some b =>
          match make_batches sc md master start (i + 1) r with
          | None => None
          | Some ks => Some (mkSubkey e (sign_with sc master (batch_id_rep (public sc e) b)) :: ks)
          end
      end
  end.

(** src/crypto/ots.rs:115-146; the number of batches is the number of fresh secrets *)
Definition generate (sc : scheme) (md : mode) (master : bytes) (start : N) (eks : list bytes)
  : option secrets :=
  match make_batches sc md master start 0 eks with
  | None => None
  | Some ks => Some (mkSecrets (public sc master) start ks 0 [] default_key null_sig)
  end.

(** src/crypto/ots.rs:211-218 *)
Definition null_ots : ots := mkOts null_sig default_key default_key null_sig null_sig.

(** src/crypto/ots.rs:149-219: [msg] is the message's [hash_rep], [fresh] the secret of
    the key pair generated at 174; [None] is a panic.  Indexing is inside the checked
    bounds, so the defaults of [nth] are never used. *)
Definition sign (sc : scheme) (md : mode) (self : secrets) (id : identifier) (msg fresh : bytes)
  : option ots :=
  match add64 md (batch id) 1 with
  | None => None
  | Some next =>
      if (next =? first_batch self) && (first_offset self <=? offset id)
         && (offset id - first_offset self <? N.of_nat (length (offsets self)))
      then
        let k := nth (N.to_nat (offset id - first_offset self)) (offsets self) (mkSubkey [] []) in
        Some (mkOts (sign_with sc (secret k) msg) (public sc (secret k)) (offsets_pk2 self)
                (pk_sig_new k) (offsets_pk2_sig self))
      else if (first_batch self <=? batch id)
              && (batch id - first_batch self <? N.of_nat (length (batches self)))
      then
        let k := nth (N.to_nat (batch id - first_batch self)) (batches self) (mkSubkey [] []) in
        Some (mkOts (sign_with sc fresh msg) (public sc fresh) (public sc (secret k))
                (sign_with sc (secret k) (offset_id_rep (public sc fresh) (batch id) (offset id)))
                (pk_sig_new k))
      else if first_batch self =? next
      then match add64 md (offset id) 1 with
           | None => None
           | Some _ => Some null_ots
           end
      else Some null_ots
  end.

(** the numbers of a [Range<u64>], src/crypto/ots.rs:275 *)
Definition range (lo hi : N) : list N :=
  map (fun i => lo + N.of_nat i) (seq 0 (N.to_nat (hi - lo))).

(** src/crypto/ots.rs:223-294: [rng off] is the secret generated for offset [off] at
    276; [None] is a panic *)
Definition delete_before (sc : scheme) (md : mode) (self : secrets) (current : identifier)
  (num_keys_per_batch : N) (rng : N -> bytes) : option secrets :=
  match add64 md (batch current) 1 with
  | None => None
  | Some next =>
      if next =? first_batch self then
        if first_offset self <? offset current then
          let jump := N.min (offset current - first_offset self) (N.of_nat (length (offsets self))) in
          match add64 md (first_offset self) jump with
          | None => None
          | Some fo =>
              Some (mkSecrets (verifier self) (first_batch self) (batches self) fo
                      (skipn (N.to_nat jump) (offsets self)) (offsets_pk2 self) (offsets_pk2_sig self))
          end
        else Some self
      else if next <? first_batch self then Some self
      else
        match sub64 md (batch current) (first_batch self) with
        | None => None
        | Some jump =>
            if N.of_nat (length (batches self)) <? jump then
              match batches self with
              | [] => Some (mkSecrets (verifier self) (first_batch self) [] (first_offset self) []
                              (offsets_pk2 self) (offsets_pk2_sig self))
              | _ => Some (mkSecrets (verifier self) (batch current) [] (first_offset self) []
                             (offsets_pk2 self) (offsets_pk2_sig self))
              end
            else
              match add64 md (first_batch self) jump with
              | None => None
              | Some fb =>
                  match skipn (N.to_nat jump) (batches self) with
                  | [] => Some (mkSecrets (verifier self) fb [] (first_offset self) []
                                  (offsets_pk2 self) (offsets_pk2_sig self))
                  | k :: rest =>
                      match add64 md fb 1 with
                      | None => None
                      | Some fb1 =>
                          Some (mkSecrets (verifier self) fb1 rest (offset current)
                            (map (fun off => mkSubkey (rng off)
                               (sign_with sc (secret k)
                                  (offset_id_rep (public sc (rng off)) (batch current) off)))
                               (range (offset current) num_keys_per_batch))
                            (public sc (secret k)) (pk_sig_new k))
                      end
                  end
              end
        end
  end.

(** src/crypto/ots.rs:299-313 *)
Definition snapshot (self : secrets) : secrets :=
  mkSecrets (verifier self) (first_batch self) (batches self) (first_offset self)
    (offsets self) (offsets_pk2 self) (offsets_pk2_sig self).

(** src/crypto/ots.rs:319-341 *)
Definition verify (sc : scheme) (o : ots) (id : identifier) (msg pk : bytes) : bool :=
  check sc pk (batch_id_rep (o_pk2 o) (batch id)) (o_pk2_sig o)
  && check sc (o_pk2 o) (offset_id_rep (o_pk o) (batch id) (offset id)) (o_pk1_sig o)
  && check sc (o_pk o) msg (o_sig o).
