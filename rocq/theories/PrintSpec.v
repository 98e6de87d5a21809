(** What the printed forms are, independently of the routines that print (RFC 4648 for base 64). *)
From Verif Require Import Base AddressSpec KeyfileSpec OtsModel AccountModel.
From Verif Require VrfModel.
Local Open Scope N_scope.

(** ** C150 *)
(** Digits 0 to 63 are written A to Z, a to z, 0 to 9, plus and slash. *)
Definition digit64_char (d : N) : N :=
  if d <? 26 then 65 + d else if d <? 52 then 97 + (d - 26) else if d <? 62 then 48 + (d - 52) else if d =? 62 then 43 else 47.
(** [text] is the base-64 form of [data]: as few digits as can hold the bits of [data], the unused
    [z] low bits are zero, and equal signs up to a multiple of four characters. *)
Definition is_base64 (data text : bytes) : Prop :=
  exists ds z pad, (z < 6)%nat /\ (6 * length ds = 8 * length data + z)%nat /\ (pad < 4)%nat /\ (exists q, length ds + pad = 4 * q)%nat /\
    Forall (fun d => d < 64) ds /\ map Byte.to_N text = map digit64_char ds ++ repeat 61 pad /\
    be_value 64 ds = be_value 256 (map Byte.to_N data) * 2 ^ N.of_nat z.
(** An amount is a number after the sign of the currency. *)
Definition is_amount (a : N) (text : bytes) : Prop := exists d, is_decimal a d /\ text = [xce; xbc; x41; x20] ++ d.

(** What the report on a participation key tells. *)
Record facts := mkFacts {
  f_parent : bytes; f_selection : bytes; f_voting : bytes; f_first : N; f_last : N; f_dilution : N; f_batch : N; f_offset : N
}.
Definition facts_fit (f : facts) : Prop :=
  length (f_parent f) = 32%nat /\ u64 (f_first f) /\ u64 (f_last f) /\ u64 (f_dilution f) /\ u64 (f_batch f) /\ u64 (f_offset f).
(** The report: eight lines, each with its title. *)
Definition is_report (H : bytes -> bytes) (f : facts) (text : bytes) : Prop :=
  exists parent selection voting first last dilution batch offset,
    is_address_text H (f_parent f) parent /\ is_base64 (f_selection f) selection /\ is_base64 (f_voting f) voting /\
    is_decimal (f_first f) first /\ is_decimal (f_last f) last /\ is_decimal (f_dilution f) dilution /\
    is_decimal (f_batch f) batch /\ is_decimal (f_offset f) offset /\
    text = str "Parent address: " ++ parent ++ [x0a] ++ str "VRF public key: " ++ selection ++ [x0a] ++
           str "Voting pub key: " ++ voting ++ [x0a] ++ str "First valid:    " ++ first ++ [x0a] ++
           str "Last valid:     " ++ last ++ [x0a] ++ str "Key dilution:   " ++ dilution ++ [x0a] ++
           str "First batch:    " ++ batch ++ [x0a] ++ str "First offset:   " ++ offset ++ [x0a].
(** What there is to tell about a participation. *)
Definition facts_of (p : participation) : facts :=
  mkFacts (parent p) (VrfModel.public_key (vrf p)) (verifier (voting p)) (part_first p) (part_last p) (part_dilution p) (first_batch (voting p)) (first_offset (voting p)).
