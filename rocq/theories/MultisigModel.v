(** Model of src/crypto/multisig.rs and src/crypto/batch_verifier.rs.
    Public keys are their 32 compressed bytes, signatures are byte strings. *)
From Verif Require Import Base.
From Verif Require Export Scheme.
Local Open Scope N_scope.

(** src/crypto/batch_verifier.rs:10-16 *)
Record batch_verifier := mkBatch {
  messages : list bytes;
  public_keys : list bytes;
  signatures : list bytes
}.
(** src/crypto/batch_verifier.rs:18-22 *)
Inductive batch_error := VerificationFailed | ZeroTranscationsInBatch.

(** src/crypto/batch_verifier.rs:26-35,68-74 (capacities do not matter) *)
Definition new_batch : batch_verifier := mkBatch [] [] [].

(** src/crypto/batch_verifier.rs:37-41 *)
Definition enque_sig (pk msg sig : bytes) (b : batch_verifier) : batch_verifier :=
  mkBatch (messages b ++ [msg]) (public_keys b ++ [pk]) (signatures b ++ [sig]).

(** src/crypto/batch_verifier.rs:44-46 *)
Definition num_sigs_enqued (b : batch_verifier) : nat := length (messages b).

(** src/crypto/batch_verifier.rs:55-62, the loop from index [i]; a missing key or
    signature at an index is a panic *)
Fixpoint batch_loop (sc : scheme) (b : batch_verifier) (i left : nat) : outcome batch_error unit :=
  match left with
  | O => Ok tt
  | S left' =>
      match nth_error (public_keys b) i, nth_error (messages b) i, nth_error (signatures b) i with
      | Some pk, Some m, Some s =>
          if check sc pk m s then batch_loop sc b (S i) left' else Err VerificationFailed
      | _, _, _ => Panic
      end
  end.

(** src/crypto/batch_verifier.rs:50-65 *)
Definition batch_check (sc : scheme) (b : batch_verifier) : outcome batch_error unit :=
  if (num_sigs_enqued b =? 0)%nat then Err ZeroTranscationsInBatch
  else batch_loop sc b 0 (length (messages b)).

(** src/crypto/multisig.rs:14 *)
Definition MAX_MULTISIG : nat := 255.

(** src/crypto/multisig.rs:21-25 *)
Record subsig := mkSubsig { key : bytes; sig : option bytes }.
(** src/crypto/multisig.rs:27-32; version and threshold are [u8] *)
Record multisig := mkMsig { version : N; threshold : N; subsigs : list subsig }.

(** [MultisigSubsig::default()]; src/crypto/multisig.rs:20-25 *)
Definition default_subsig : subsig := mkSubsig default_key None.

(** src/crypto/multisig.rs:34-56 *)
Inductive multisig_error :=
| UnknownVersion (v : N)
| InvalidThreshold
| InvalidSignature
| InvalidAddress
| InvalidNumberOfSignatures
| KeyNotExists
| ThresholdsDontMatch (a b : N)
| VersionsDontMatch (a b : N)
| KeysDontMatch
| InvalidDuplicates.

(** derived [PartialEq] of [Option<Signature>], src/crypto/multisig.rs:20-25 *)
Definition opt_eqb (a b : option bytes) : bool :=
  match a, b with
  | None, None => true
  | Some x, Some y => bytes_eqb x y
  | _, _ => false
  end.
(** derived [PartialEq] of [MultisigSubsig]; src/crypto/multisig.rs:20-25 *)
Definition subsig_eqb (a b : subsig) : bool := bytes_eqb (key a) (key b) && opt_eqb (sig a) (sig b).

(** src/crypto/multisig.rs:59-77 *)
Definition from_pks (H : bytes -> bytes) (version threshold : N) (pks : list bytes)
  : outcome multisig_error bytes :=
  if negb (version =? 1) then Err (UnknownVersion version)
  else if (threshold =? 0) || (length pks =? 0)%nat || (N.of_nat (length pks) <? threshold)
  then Err InvalidThreshold
  else Ok (H (str "MultisigAddr" ++ [b8 version] ++ [b8 threshold] ++ concat pks)).

(** src/crypto/multisig.rs:81-88 *)
Definition from_subsigs (H : bytes -> bytes) (version threshold : N) (ss : list subsig)
  : outcome multisig_error bytes :=
  from_pks H version threshold (map key ss).

(** src/crypto/multisig.rs:91-131; the key pair is its secret [sk], the receiver is [self] *)
Definition sign (H : bytes -> bytes) (sc : scheme) (self msg : bytes) (version threshold : N)
  (pks : list bytes) (sk : bytes) : outcome multisig_error multisig :=
  if negb (version =? 1) then Err (UnknownVersion version)
  else
    (let? addr := from_pks H version threshold pks in
     if negb (bytes_eqb self addr) then Err InvalidAddress
     else if negb (existsb (bytes_eqb (public sc sk)) pks) then Err KeyNotExists
     else Ok (mkMsig version threshold
            (map (fun pk => mkSubsig pk
                (if bytes_eqb (public sc sk) pk then Some (sign_with sc sk msg) else None)) pks)))%outcome.

(** src/crypto/multisig.rs:153-157 and 340-344: compares the keys of the first [n]
    slots from slot [i] on; indexing past the end panics *)
Fixpoint same_keys (a b : list subsig) (i n : nat) : outcome multisig_error unit :=
  match n with
  | O => Ok tt
  | S n' =>
      match nth_error a i, nth_error b i with
      | Some x, Some y => if negb (bytes_eqb (key x) (key y)) then Err KeysDontMatch
                          else same_keys a b (S i) n'
      | _, _ => Panic
      end
  end.

(** src/crypto/multisig.rs:141-158, loop over the other signatures *)
Fixpoint all_match (first : multisig) (others : list multisig) : outcome multisig_error unit :=
  match others with
  | [] => Ok tt
  | u :: r =>
      if negb (threshold first =? threshold u)
      then Err (ThresholdsDontMatch (threshold first) (threshold u))
      else if negb (version first =? version u)
      then Err (VersionsDontMatch (version first) (version u))
      else if negb (length (subsigs first) =? length (subsigs u))%nat
      then Err InvalidNumberOfSignatures
      else (let? _ := same_keys (subsigs first) (subsigs u) 0 (length (subsigs first)) in
            all_match first r)%outcome
  end.

(** src/crypto/multisig.rs:180-184: a present signature overwrites; [None] is an index
    panic *)
Fixpoint overwrite (acc new : list subsig) : option (list subsig) :=
  match acc, new with
  | [], _ => Some []
  | a :: acc', n :: new' =>
      match overwrite acc' new' with
      | Some r => Some (match sig n with Some s => mkSubsig (key a) (Some s) | None => a end :: r)
      | None => None
      end
  | _ :: _, [] => None
  end.
(** src/crypto/multisig.rs:179-185, for all the partial signatures *)
Fixpoint overwrite_all (acc : list subsig) (us : list multisig) : option (list subsig) :=
  match us with
  | [] => Some acc
  | u :: r => match overwrite acc (subsigs u) with
              | Some acc' => overwrite_all acc' r
              | None => None
              end
  end.

(** src/crypto/multisig.rs:136-188 *)
Definition assemble (us : list multisig) : outcome multisig_error multisig :=
  if (length us <? 2)%nat then Err InvalidNumberOfSignatures
  else match us with
       | [] => Panic
       | first :: others =>
           (let? _ := all_match first others in
            match overwrite_all (map (fun s => mkSubsig (key s) None) (subsigs first)) us with
            | Some ss => Ok (mkMsig (version first) (threshold first) ss)
            | None => Panic
            end)%outcome
       end.

(** src/crypto/multisig.rs:238-244: enqueue the present signatures and count them in a
    [u8]; a counter overflow is a panic (it wraps in a release build) *)
Fixpoint enqueue_all (msg : bytes) (ss : list subsig) (b : batch_verifier) (verified : N)
  : outcome multisig_error (batch_verifier * N) :=
  match ss with
  | [] => Ok (b, verified)
  | s :: r =>
      match sig s with
      | Some g => if verified =? 255 then Panic
                  else enqueue_all msg r (enque_sig (key s) msg g b) (verified + 1)
      | None => enqueue_all msg r b verified
      end
  end.

(** src/crypto/multisig.rs:234, the signatures that are present *)
Definition is_signed (s : subsig) : bool := match sig s with Some _ => true | None => false end.

(** src/crypto/multisig.rs:205-255 *)
Definition batch_verify (H : bytes -> bytes) (self : multisig) (msg addr : bytes) (b : batch_verifier)
  : outcome multisig_error (bool * batch_verifier) :=
  match subsigs self with
  | [] => Err InvalidNumberOfSignatures
  | s0 :: _ =>
      if subsig_eqb s0 default_subsig then Err InvalidNumberOfSignatures
      else
        (let? addrnew := from_subsigs H (version self) (threshold self) (subsigs self) in
         if negb (bytes_eqb addr addrnew) then Err InvalidAddress
         else if (MAX_MULTISIG <? length (subsigs self))%nat then Err InvalidNumberOfSignatures
         else if N.of_nat (length (subsigs self)) <? threshold self then Err InvalidNumberOfSignatures
         else
           let non_empty := length (filter is_signed (subsigs self)) in
           if N.of_nat non_empty <? threshold self then Err InvalidNumberOfSignatures
           else
             let? (b, verified) := enqueue_all msg (subsigs self) b 0 in
             if verified <? threshold self then Err InvalidNumberOfSignatures
             else Ok (true, b))%outcome
  end.

(** src/crypto/multisig.rs:191-201 *)
Definition verify (H : bytes -> bytes) (sc : scheme) (self : multisig) (msg addr : bytes)
  : outcome multisig_error bool :=
  (let? (ok, b) := batch_verify H self msg addr new_batch in
   if negb ok then Ok false
   else if (num_sigs_enqued b =? 0)%nat then Ok true
   else match batch_check sc b with
        | Ok _ => Ok true
        | Err _ => Ok false
        | Panic => Panic
        end)%outcome.

(** src/crypto/multisig.rs:323-345 *)
Definition matches (self other : multisig) (num_subsigs : nat) : outcome multisig_error unit :=
  if negb (threshold self =? threshold other)
  then Err (ThresholdsDontMatch (threshold self) (threshold other))
  else if negb (version self =? version other)
  then Err (VersionsDontMatch (version self) (version other))
  else if negb (length (subsigs self) =? length (subsigs other))%nat then Err KeysDontMatch
  else same_keys (subsigs self) (subsigs other) 0 num_subsigs.

(** src/crypto/multisig.rs:270-280: the effect of one partial signature on the slots;
    also the slots reached when an error is returned, since they were changed in place *)
Fixpoint add_slots (slots new : list subsig) : list subsig * outcome multisig_error unit :=
  match slots with
  | [] => ([], Ok tt)
  | a :: slots' =>
      match new with
      | [] => (slots, Panic)
      | n :: new' =>
          match sig n with
          | None => let '(r, o) := add_slots slots' new' in (a :: r, o)
          | Some g =>
              match sig a with
              | None => let '(r, o) := add_slots slots' new' in (mkSubsig (key a) (Some g) :: r, o)
              | Some g' => if bytes_eqb g' g
                           then let '(r, o) := add_slots slots' new' in (a :: r, o)
                           else (slots, Err InvalidDuplicates)
              end
          end
      end
  end.
(** src/crypto/multisig.rs:269-281, for all the partial signatures *)
Fixpoint add_all (slots : list subsig) (us : list multisig) : list subsig * outcome multisig_error unit :=
  match us with
  | [] => (slots, Ok tt)
  | u :: r => match add_slots slots (subsigs u) with
              | (slots', Ok _) => add_all slots' r
              | e => e
              end
  end.
(** src/crypto/multisig.rs:264-266, for all the partial signatures *)
Fixpoint match_all (self : multisig) (us : list multisig) (n : nat) : outcome multisig_error unit :=
  match us with
  | [] => Ok tt
  | u :: r => (let? _ := matches self u n in match_all self r n)%outcome
  end.

(** src/crypto/multisig.rs:258-284: new value of the receiver and result *)
Definition add_sigs (self : multisig) (us : list multisig) : multisig * outcome multisig_error unit :=
  match us with
  | [] => (self, Err InvalidNumberOfSignatures)
  | u0 :: _ =>
      match match_all self us (length (subsigs u0)) with
      | Ok _ => let '(slots, o) := add_all (subsigs self) us in
                (mkMsig (version self) (threshold self) slots, o)
      | Err e => (self, Err e)
      | Panic => (self, Panic)
      end
  end.

(** src/crypto/multisig.rs:296-317 *)
Fixpoint merge_slots (a b : list subsig) : outcome multisig_error (list subsig) :=
  match a with
  | [] => Ok []
  | x :: a' =>
      match b with
      | [] => Panic
      | y :: b' =>
          (let? s :=
             (match sig x with
              | None => match sig y with Some g => Ok (Some g) | None => Ok None end
              | Some g => if negb (is_signed y) || opt_eqb (sig y) (sig x)
                          then Ok (Some g) else Err InvalidDuplicates
              end) in
           let? r := merge_slots a' b' in Ok (mkSubsig (key x) s :: r))%outcome
      end
  end.

(** src/crypto/multisig.rs:287-320 *)
Definition merge (self other : multisig) : outcome multisig_error multisig :=
  (let? _ := matches self other (length (subsigs self)) in
   let? ss := merge_slots (subsigs self) (subsigs other) in
   Ok (mkMsig (version self) (threshold self) ss))%outcome.
