(** * Model of unseal requests

    core/cmd_interface/cerberus_protocol_optional_commands.c:649-716
    (cerberus_protocol_unseal_message), the accessors of
    cerberus_protocol_optional_commands.h:830-919, and the part of
    cmd_background_handler_execute that takes a request apart
    (core/cmd_interface/cmd_background_handler.c:304-333).

    Modelled: every check in its order, with pointers as offsets into the
    buffer that holds the message, and reads outside that buffer as a separate
    outcome.  The buffer may be longer than the message; what follows the
    message is left over from earlier ones.

    Simplified: offsets do not wrap (the lengths are 16 bits wide and the
    buffer is far from the end of the address space). *)
From Coq Require Import List NArith Lia Bool Arith.
From Verif Require Import Base.
Import ListNotations.
Local Open Scope nat_scope.

(** The codes of the checks: CMD_HANDLER_BAD_LENGTH, CMD_HANDLER_OUT_OF_RANGE,
    a read outside the buffer, or the request is passed to unseal_start. *)
Inductive verdict : Type := BadLength | OutOfRange | OutOfBounds | Accepted.

(** A 16-bit field of a packed structure. *)
Definition rd16 (buf : list N) (i : nat) : option nat :=
  if i + 2 <=? length buf then Some (N.to_nat (le_value (window i 2 buf))) else None.

(** struct cerberus_protocol_message_unseal (h:830-848): five bytes of header,
    seed_type:2 and hmac_type:3, seed_params, seed_length, seed. *)
Definition UNSEAL_SIZE : nat := 10.
Definition seed_type (buf : list N) : N := N.land (nth 5 buf 0%N) 3.
Definition hmac_type (buf : list N) : N := N.land (N.shiftr (nth 5 buf 0%N) 2) 7.
Definition rsa_padding (buf : list N) : N := N.land (nth 6 buf 0%N) 7.
Definition ecdh_processing (buf : list N) : N := N.land (nth 6 buf 0%N) 1.

(** cerberus_protocol_unseal_ciphertext_ptr (h:877-879): the size of the request +
    seed_length - sizeof (seed). *)
Definition ciphertext_at (seed_len : nat) : nat := UNSEAL_SIZE + seed_len - 1.
(** cerberus_protocol_unseal_hmac_ptr (h:896-898). *)
Definition hmac_at (seed_len cipher_len : nat) : nat := ciphertext_at seed_len + 2 + cipher_len.
(** cerberus_protocol_get_unseal_pmr_sealing (h:916-918). *)
Definition pmrs_at (seed_len cipher_len hmac_len : nat) : nat :=
  hmac_at seed_len cipher_len + 2 + hmac_len.

Definition CIPHERTEXT_SIZE : nat := 3.  (* sizeof (struct cerberus_protocol_unseal_ciphertext) *)
Definition HMAC_SIZE : nat := 3.        (* sizeof (struct cerberus_protocol_unseal_hmac) *)
Definition PMRS_SIZE : nat := 320.      (* sizeof (struct cerberus_protocol_unseal_pmrs) *)
Definition SHA256_LENGTH : nat := 32.

(** cerberus_protocol_unseal_message (c:649-702), up to the call of
    unseal_start.  [len] is request->length. *)
Definition unseal_message (buf : list N) (len : nat) : verdict :=
  if len <? UNSEAL_SIZE then BadLength
  else if negb (hmac_type buf =? 0)%N || (1 <? seed_type buf)%N then OutOfRange
  else if (seed_type buf =? 0)%N && (2 <? rsa_padding buf)%N then OutOfRange
  else
    match rd16 buf 7 with
    | None => OutOfBounds
    | Some seed_len =>
        if (seed_len =? 0) || (len <=? ciphertext_at seed_len) then BadLength
        else if len <=? ciphertext_at seed_len + CIPHERTEXT_SIZE then BadLength
        else
          match rd16 buf (ciphertext_at seed_len) with
          | None => OutOfBounds
          | Some cipher_len =>
              if (cipher_len =? 0) || (len <=? hmac_at seed_len cipher_len) then BadLength
              (* c:689-690 looks at the ciphertext again, not at the HMAC *)
              else if len <=? ciphertext_at seed_len + HMAC_SIZE then BadLength
              else
                match rd16 buf (hmac_at seed_len cipher_len) with
                | None => OutOfBounds
                | Some hmac_len =>
                    if negb (hmac_len =? SHA256_LENGTH) ||
                       (len <=? pmrs_at seed_len cipher_len hmac_len) then BadLength
                    else if negb (pmrs_at seed_len cipher_len hmac_len + PMRS_SIZE =? len)
                    then BadLength
                    else Accepted
                end
          end
    end.

(** The arguments of aux_attestation_unseal
    (cmd_background_handler.c:318-326). *)
Record arguments : Type := mkArgs {
  a_seed : list N;
  a_seed_type : N;
  a_seed_param : N;
  a_hmac : list N;
  a_ciphertext : list N;
  a_pmrs : list N
}.

(** cmd_background_handler_execute (cmd_background_handler.c:304-326) on the
    event buffer.  None: a read outside the buffer.  The HMAC is read as
    SHA-256, i.e. 32 bytes, and the PMRs as five of 64 bytes. *)
Definition field (buf : list N) (i n : nat) : option (list N) :=
  if i + n <=? length buf then Some (window i n buf) else None.

Definition unseal_arguments (buf : list N) : option arguments :=
  match rd16 buf 7 with
  | None => None
  | Some seed_len =>
      match field buf 9 seed_len, rd16 buf (ciphertext_at seed_len) with
      | Some seed, Some cipher_len =>
          match field buf (ciphertext_at seed_len + 2) cipher_len,
                rd16 buf (hmac_at seed_len cipher_len) with
          | Some cipher, Some hmac_len =>
              match field buf (hmac_at seed_len cipher_len + 2) SHA256_LENGTH,
                    field buf (pmrs_at seed_len cipher_len hmac_len) PMRS_SIZE with
              | Some hmac, Some pmrs =>
                  Some (mkArgs seed (seed_type buf)
                          (if (seed_type buf =? 1)%N then ecdh_processing buf else rsa_padding buf)
                          hmac cipher pmrs)
              | _, _ => None
              end
          | _, _ => None
          end
      | _, _ => None
      end
  end.
