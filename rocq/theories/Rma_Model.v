(** * Model of the transition to RMA (core/rma)

    rma_unlock_token.c, secure_device_unlock_rma.c and
    authorized_execution_rma.c, with signature_verification_verify_message and
    what it calls in core/crypto/signature_verification.c.

    The device UUID, the hash engine, the verification engine and the device
    handler that makes the transition are external: each may fail at will, and
    every call made to them is recorded.  A read outside of the token is
    [ROver].

    Simplified: pointers are not null; integers are little endian; a hash that
    was started is active until it is finished or cancelled; wiping the digest
    and the debug log are not modelled; neither is cmd_interface_rma.c. *)
From Coq Require Import List NArith Bool Arith.
From Verif Require Import Base BufferUtil_Model Der_Model.
Import ListNotations.

(** rma_unlock_token.c:16-26 *)
Definition FORMAT : N := 1.
Definition MAGIC : N := 0x52545354.
Definition UUID_LEN := 16.

(** 0, an error of get_uuid, BAD_TOKEN_DATA, DEVICE_MISMATCH
    (rma_unlock_token.h), an error of signature verification or of the
    transition; [ROver] is a read outside of the token. *)
Inductive status := ROk | RUuid | RBad | RMismatch | RSignature | RTransition | ROver.

(** rma_unlock_token.h: the OID of the device type, the digest of the Device ID
    key, and the key of the authority if tokens are signed. *)
Record handler := Handler { h_oid : list N; h_dice : list N; h_key : option (list N) }.

(** Calls to the hash engine, the verification engine and the device. *)
Inductive call :=
| HashStart | HashUpdate (d : list N) | HashFinish (ok : bool) | HashCancel
| SetKey (k : option (list N)) (ok : bool) | Verify (digest signature : list N)
| Transition.

(** What the external parts do: the UUID (None is an error), whether each call
    works, and whether a signature of a digest is right for a key. *)
Record env := Env {
  e_uuid : option (list N); e_start : bool; e_update : bool; e_finish : bool; e_set_key : bool; e_wipe : bool;
  e_transition : bool; e_verify : list N -> list N -> list N -> bool }.

Section MODEL.
(** The number of values of size_t, and the hash algorithm. *)
Variable SIZE : N.
Variable hash : list N -> list N.

(** [n] bytes at [o] of the token, which a caller may read only if they are there. *)
Definition piece (data : list N) (o n : nat) : option (list N) :=
  if o + n <=? length data then Some (window o n data) else None.

(** buffer_compare (buffer_util.c:159-180) on bytes *)
Definition compare (a b : list N) (n : nat) : bool := buffer_compare (N.ones 8) (Some a) (Some b) n.

(** rma_unlock_token.c:45-50 of validate_token_data: get_uuid into a cleared buffer. *)
Definition uuid_buffer (u : list N) : list N := firstn UUID_LEN (u ++ repeat 0%N UUID_LEN).

(** One field of the token: its length is checked, then its contents. *)
Definition field (data : list N) (o n : nat) (right : list N -> bool) (wrong : status) (k : nat -> nat + status) : nat + status :=
  if length data <? o + n then inr RBad
  else
    match piece data o n with
    | None => inr ROver
    | Some d => if right d then k (o + n) else inr wrong
    end.

(** rma_unlock_token_validate_token_data (rma_unlock_token.c:39-128): where the
    token ends, or the error. *)
Definition validate (h : handler) (e : env) (data : list N) : nat + status :=
  match e_uuid e with
  | None => inr RUuid
  | Some u =>
      match decode_oid SIZE data with
      | Err => inr RBad
      | Over => inr ROver
      | Ret (body, n) =>
          if negb (N.of_nat (length (h_oid h)) =? n)%N then inr RMismatch
          else if length body <? N.to_nat n then inr ROver
          else if negb (compare (h_oid h) body (N.to_nat n)) then inr RMismatch
          else
            let o := length data - length body + N.to_nat n in
            field data o 2 (fun d => le_value d =? FORMAT)%N RBad (fun o =>
            field data o 4 (fun d => le_value d =? MAGIC)%N RBad (fun o =>
            field data o UUID_LEN (fun d => compare (uuid_buffer u) d UUID_LEN) RMismatch (fun o =>
            field data o (length (h_dice h)) (fun d => compare (h_dice h) d (length (h_dice h))) RMismatch (fun o => inl o))))
      end
  end.

(** signature_verification_verify_digest (signature_verification.c:70-97), with a key. *)
Definition verify_digest (e : env) (key digest signature : list N) : bool * list call :=
  if length key =? 0 then (false, [])
  else if negb (e_set_key e) then (false, [SetKey (Some key) false])
  else (e_verify e key digest signature, [SetKey (Some key) true; Verify digest signature; SetKey None (e_wipe e)]).

(** signature_verification_verify_message (27-52) with
    verify_hash_and_finish_save_digest (211-253). *)
Definition verify_message (e : env) (key message signature : list N) : bool * list call :=
  if length signature =? 0 then (false, [])
  else if negb (e_start e) then (false, [])
  else if negb (e_update e) then (false, [HashStart; HashUpdate message; HashCancel])
  else if negb (e_finish e) then (false, [HashStart; HashUpdate message; HashFinish false; HashCancel])
  else
    let '(r, t) := verify_digest e key (hash message) signature in
    (r, [HashStart; HashUpdate message; HashFinish true] ++ t).

(** rma_unlock_token_authenticate (130-146) and
    rma_unlock_token_authenticate_no_signature (148-162). *)
Definition authenticate (h : handler) (e : env) (data : list N) : status * list call :=
  match validate h e data with
  | inr s => (s, [])
  | inl o =>
      match h_key h with
      | Some key =>
          match piece data 0 o, piece data o (length data - o) with
          | Some message, Some signature =>
              let '(r, t) := verify_message e key message signature in (if r then ROk else RSignature, t)
          | _, _ => (ROver, [])
          end
      | None => (if o =? length data then ROk else RBad, [])
      end
  end.

(** secure_device_unlock_rma_apply_unlock_policy (secure_device_unlock_rma.c:31-47)
    and authorized_execution_rma_execute (authorized_execution_rma.c:11-44). *)
Definition execute (h : handler) (e : env) (data : list N) : status * list call :=
  let '(s, t) := authenticate h e data in
  match s with
  | ROk => (if e_transition e then ROk else RTransition, t ++ [Transition])
  | s => (s, t)
  end.

(** authorized_execution_rma_validate_data (authorized_execution_rma.c:46-57) *)
Definition validate_data := authenticate.

(** secure_device_unlock_rma_get_unlock_token (secure_device_unlock_rma.c:12-29):
    the buffer afterwards and the length, or the error. *)
Definition get_unlock_token (csr buf : list N) : list N * option nat :=
  if length buf <? length csr then (buf, None) else (splice buf 0 csr, Some (length csr)).
End MODEL.
