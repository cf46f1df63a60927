(** * Model of unsealing

    core/attestation/aux_attestation.c:338-505 (aux_attestation_unseal) and the
    way it is called for an unseal request
    (core/cmd_interface/cmd_background_handler.c:318-326,
    core/attestation/attestation_responder.c).

    Modelled: every check in its order, the choice of padding and hashing, which
    keys are derived from which labels, what is authenticated, and the
    comparison of the sealing values with the PCRs, byte by byte; comparisons are
    those of BufferUtil_Model.

    External: recovering the seed (RSA decryption, ECDH), key derivation and
    HMAC (core/crypto, see Hmac_Model), and the PCRs, each with its failures.  A
    key derivation that fails may leave anything in its output.

    Simplified: pointers are not null; a sealing policy is a list of rows of 64
    bytes; PCR digests have at most 64 bytes (pcr.h). *)
From Coq Require Import String Ascii List NArith Lia Bool Arith.
From Verif Require Import Base Unseal_Model BufferUtil_Model.
Import ListNotations.
Local Open Scope list_scope.
Local Open Scope nat_scope.

(** AUX_ATTESTATION_* (aux_attestation.h:111-122). *)
Inductive code : Type :=
| Success
| InvalidArgument | UnsupportedKeyLength | UnsupportedHmac | BufferTooSmall | BadSeedParam
| UnknownSeed | HmacMismatch | PcrLengthMismatch | PcrMismatch
| External (e : N).

(** A C string without its terminating zero. *)
Fixpoint text (s : string) : list N :=
  match s with
  | EmptyString => []
  | String c r => N_of_ascii c :: text r
  end.

(** aux_attestation.c:19, 24. *)
Definition ENCRYPTION_LABEL : list N := text "encryption key".
Definition SIGNING_LABEL : list N := text "signing key".

Definition KEY_256BIT : nat := 32.
Definition HMAC_SHA256 : N := 1.
Definition POLICY : nat := 64.

Section MODEL.
(** RSA decryption with OAEP padding over SHA-1 or SHA-256 (true); ECDH, raw or
    hashed (true). *)
Variable decrypt : bool -> list N -> N + list N.
Variable ecdh : bool -> list N -> N + list N.
(** kdf_nist800_108_counter_mode for 32 bytes: the status and the output. *)
Variable kdf : list N -> list N -> N * list N.
(** HMAC-SHA256, in pieces or not (theorem C55_pieces). *)
Variable hmac : list N -> list N -> N + list N.
(** The digest length of a PCR and its value; None if there is no such PCR. *)
Variable pcrs : nat -> option (nat * (N + list N)).
(** PCR_INVALID_PCR. *)
Variable INVALID_PCR : N.

(** aux_attestation.c:379-417: the seed.  Seed types and parameters are those of
    the message (aux_attestation.h:39-51). *)
Definition get_seed (seed_type seed_param : N) (seed : list N) : code + list N :=
  let wrap (r : N + list N) : code + list N :=
    match r with inl e => inl (External e) | inr x => inr x end in
  if (seed_type =? 0)%N then
    if (seed_param =? 1)%N then wrap (decrypt false seed)
    else if (seed_param =? 2)%N then wrap (decrypt true seed)
    else inl BadSeedParam
  else if (seed_type =? 1)%N then
    if negb (seed_param =? 0)%N && negb (seed_param =? 1)%N then inl BadSeedParam
    else wrap (ecdh (seed_param =? 1)%N seed)
  else inl UnknownSeed.

(** aux_attestation.c:468-480: the loop over the bytes of a row.  None: the
    first byte that is not zero comes too early.  Some bypass otherwise. *)
Fixpoint scan (row : list N) (j unused : nat) : option bool :=
  match row with
  | [] => Some true
  | x :: r => if (x =? 0)%N then scan r (S j) unused
              else if j <? unused then None else Some false
  end.

(** aux_attestation.c:450-491: one row.  pcr_num is a byte. *)
Definition check_row (i : nat) (row : list N) : code :=
  let pcr := pcrs (i mod 256) in
  let pcr_length := match pcr with Some (n, _) => n | None => POLICY end in
  match scan (firstn POLICY row) 0 (POLICY - pcr_length) with
  | None => PcrLengthMismatch
  | Some true => Success
  | Some false =>
      match (match pcr with Some (_, v) => v | None => inl INVALID_PCR end) with
      | inl e => External e
      | inr value =>
          if buffer_compare (N.ones 8) (Some value) (Some (skipn (POLICY - pcr_length) row)) pcr_length
          then Success else PcrMismatch
      end
  end.

(** aux_attestation.c:449-492: all rows. *)
Fixpoint check_rows (i : nat) (rows : list (list N)) : code :=
  match rows with
  | [] => Success
  | row :: r => match check_row i row with Success => check_rows (S i) r | c => c end
  end.

(** aux_attestation_unseal (aux_attestation.c:338-505): the code and the key
    buffer. *)
Definition aux_unseal (key_type : nat) (seed : list N) (seed_type seed_param : N)
  (given_hmac : list N) (hmac_type : N) (ciphertext : list N) (sealing : list (list N))
  (key : list N) : code * list N :=
  if (length seed =? 0) || (length ciphertext =? 0) || (length sealing =? 0) then (InvalidArgument, key)
  else if negb (key_type =? KEY_256BIT) then (UnsupportedKeyLength, key)
  else if negb (hmac_type =? HMAC_SHA256)%N then (UnsupportedHmac, key)
  else if length key <? KEY_256BIT then (BufferTooSmall, key)
  else
    match get_seed seed_type seed_param seed with
    | inl c => (c, key)
    | inr secret =>
        let '(status, signing_key) := kdf secret SIGNING_LABEL in
        if negb (status =? 0)%N then (External status, key)
        else
          match hmac signing_key (ciphertext ++ List.concat sealing) with
          | inl e => (External e, key)
          | inr payload_hmac =>
              if negb (buffer_compare (N.ones 8) (Some given_hmac) (Some payload_hmac) 32)
              then (HmacMismatch, key)
              else
                match check_rows 0 sealing with
                | Success =>
                    let '(status, out) := kdf secret ENCRYPTION_LABEL in
                    (if (status =? 0)%N then Success else External status, splice key 0 out)
                | c => (c, key)
                end
          end
    end.

(** The call for a request (cmd_background_handler.c:318-326): five PMRs. *)
Definition unseal_request (a : arguments) (key : list N) : code * list N :=
  aux_unseal KEY_256BIT (a_seed a) (a_seed_type a) (a_seed_param a) (a_hmac a) HMAC_SHA256
    (a_ciphertext a) (map (fun i => window (64 * i) 64 (a_pmrs a)) [0; 1; 2; 3; 4]) key.
End MODEL.
