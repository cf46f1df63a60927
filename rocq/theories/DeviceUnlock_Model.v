(** Model of core/system/device_unlock_token.c and core/system/secure_device_unlock_policy.c, with asn1_get_der_item_len and
    asn1_encode_base128_oid from core/asn1/asn1_util.c.  The token handler is the one of core/common/auth_token.c as modelled in
    Auth_Model.v.

    Every read and write is checked against the size of the buffer it is in: [Over] is an access outside of it.  The security manager
    of the device (get_unlock_counter, unlock_device and lock_device, core/system/security_manager.h) is arbitrary: it gives any counter
    and succeeds or fails at will; so are the UUID of the device, memory allocation, the random generator, the signing engine, the clock
    and signature verification.  Simplifications: pointers are not null; integers are little endian; a counter or UUID read from the
    device is cut to the size of the buffer it is read into; the debug log is not modelled. *)
From Coq Require Import List NArith Bool Arith.
From Verif Require Import Base ByteMath_Model Der_Model Auth_Model.
Import ListNotations.

(** device_unlock_token.h:17-22 *)
Definition UUID_LEN := 16.
Definition NONCE_LEN := 32.

(** ** Parsing *)
(** buffer_util.h, buffer_unaligned_read16 *)
Definition read16 (data : list N) (o : nat) : res nat := a <- rd data o; b <- rd data (o + 1); Ret (N.to_nat (a + 256 * b)).

(** device_unlock_token.c:62-74, device_unlock_token_parse_auth_data_field: where the field starts, and where the next one does. *)
Definition field (length offset n : nat) : res (nat * nat) :=
  if length <? offset + n then Err else Ret (offset, offset + n).

(** device_unlock_token.c:31-44: where the parts are, and how long they are. *)
Record container := Container { p_token : nat; p_token_len : nat; p_policy : nat; p_policy_len : nat }.

(** device_unlock_token.c:87-105, device_unlock_token_parse_authorized_data *)
Definition parse_container (data : list N) : res container :=
  let len := length data in
  '(f, o) <- field len 0 2;
  tl <- read16 data f;
  '(t, o) <- field len o tl;
  '(f, o) <- field len o 2;
  pl <- read16 data f;
  '(p, o) <- field len o pl;
  Ret (Container t tl p pl).

(** asn1_util.c:137-153, asn1_get_der_item_len: the sum is converted to int, so only its lowest 32 bits count, on which the width of
    size_t has no influence; [None] for a negative number, an error code or not. *)
Definition item_len (der : list N) : res (option nat) :=
  match Der_Model.header (2 ^ 32) der with
  | Ret (len, h) => let v := ((len + N.of_nat h) mod 2 ^ 32)%N in Ret (if (v <? 2 ^ 31)%N then Some (N.to_nat v) else None)
  | Err => Ret None
  | Over => Over
  end.

(** The parts of a token that can be asked for; positions are those in the authorized data. *)
Record token_parts := Parts { t_counter : nat; t_counter_len : nat; t_nonce : nat }.

(** device_unlock_token.c:118-155, device_unlock_token_parse_authorized_data_and_token.  [oid_length] is not above the length of the
    token, so that the conversion to uint16_t at line 65 keeps it. *)
Definition parse_token (data : list N) : res token_parts :=
  p <- parse_container data;
  let token := window (p_token p) (p_token_len p) data in
  let len := p_token_len p in
  n <- item_len token;
  match n with
  | None => Err
  | Some n =>
    if len <? n then Err
    else
      '(_, o) <- field len 0 n;
      '(_, o) <- field len o 2;
      '(_, o) <- field len o UUID_LEN;
      '(f, o) <- field len o 1;
      c <- rd token f;
      '(cp, o) <- field len o (N.to_nat c);
      '(np, o) <- field len o NONCE_LEN;
      Ret (Parts (p_token p + cp) (N.to_nat c) (p_token p + np))
  end.

(** What the caller sees at the returned address *)
Definition bytes_at (data : list N) (o n : nat) : res (list N) := if o + n <=? length data then Ret (window o n data) else Over.

(** device_unlock_token.c:363-382, device_unlock_token_get_unlock_counter *)
Definition get_unlock_counter (data : list N) : res (list N) := t <- parse_token data; bytes_at data (t_counter t) (t_counter_len t).
(** device_unlock_token.c:396-415, device_unlock_token_get_nonce *)
Definition get_nonce (data : list N) : res (list N) := t <- parse_token data; bytes_at data (t_nonce t) NONCE_LEN.
(** device_unlock_token.c:428-447, device_unlock_token_get_unlock_policy *)
Definition get_unlock_policy (data : list N) : res (list N) := p <- parse_container data; bytes_at data (p_policy p) (p_policy_len p).

(** ** Tokens *)
(** device_unlock_token.c:173-193: the OID, the length of the counter and the token handler *)
Record device := Device { d_oid : list N; d_counter_len : nat; d_auth : cfg }.
(** device_unlock_token.h:33-35, DEVICE_UNLOCK_TOKEN_SIZEOF_EXTRA_DATA *)
Definition data_length (d : device) : nat := 2 + length (d_oid d) + 2 + UUID_LEN + 1 + d_counter_len d.
(** device_unlock_token.c:177-180 *)
Definition init_ok (d : device) : bool := negb (length (d_oid d) =? 0) && negb (d_counter_len d =? 0).

(** What the device does while a token is made: memory, the counter of the device, its UUID, and the token handler's environment. *)
Record env := Env { e_alloc : bool; e_counter : option (list N); e_uuid : option (list N); e_gen : gen_env }.

(** asn1_util.c:291-314, asn1_encode_base128_oid into a buffer of which [length] bytes may be used *)
Definition encode_oid (oid buf : list N) (len : nat) : res (list N * nat) :=
  if (length oid =? 0) || (127 <? length oid) || (len <? 2 + length oid) then Err
  else buf <- wr buf 0 [6%N; N.of_nat (length oid)]; buf <- wr buf 2 oid; Ret (buf, 2 + length oid).

(** device_unlock_token.c:265-286: the context of the token, built in the caller's buffer *)
Definition context (d : device) (counter buf : list N) (uuid : option (list N)) : res (list N) :=
  '(buf, o) <- encode_oid (d_oid d) buf (data_length d);
  buf <- wr buf o (le16 1);
  buf <- wr buf (o + 2) (repeat 0%N UUID_LEN);
  match uuid with
  | None => Err
  | Some u =>
    buf <- wr buf (o + 2) (firstn UUID_LEN u);
    buf <- wr buf (o + 2 + UUID_LEN) [(N.of_nat (d_counter_len d) mod 256)%N];
    c <- rds counter (d_counter_len d);
    buf <- wr buf (o + 2 + UUID_LEN + 1) c;
    Ret buf
  end.

(** What a request for a token gives: the token, an error before the token handler was asked, an error of the token handler, or a token
    that does not fit in the caller's buffer. *)
Inductive made := Issued (token : list N) | Refused | MakeFailed | Withheld (token : list N) | OutOfBounds.

(** device_unlock_token.c:236-303, device_unlock_token_generate *)
Definition generate (d : device) (s : tok) (counter buf : list N) (uuid : option (list N)) (g : gen_env) (now : N) : tok * made :=
  if negb (length counter =? d_counter_len d) then (s, Refused)
  else if length buf <? data_length d then (s, Refused)
  else
    match context d counter buf uuid with
    | Err => (s, Refused)
    | Over => (s, OutOfBounds)
    | Ret buf =>
      match new_token (d_auth d) s (firstn (data_length d) buf) g now with
      | (s, Generated t) => (s, if length buf <? length t then Withheld t else Issued t)
      | (s, GenTooLong) => (s, Refused)
      | (s, GenFailed) => (s, MakeFailed)
      end
    end.

(** secure_device_unlock_policy.c:13-61, secure_device_unlock_policy_get_unlock_token *)
Definition get_unlock_token (d : device) (s : tok) (buf : list N) (v : env) (now : N) : tok * made :=
  if negb (e_alloc v) then (s, Refused)
  else
    match e_counter v with
    | None => (s, Refused)
    | Some c =>
      let c := firstn (d_counter_len d) c in
      if Nat.odd (get_num_contiguous_bits_set_in_array c) then (s, Refused)
      else
        match set_next_bit_odd_count c with
        | Some (c, CM_OK) => generate d s c buf (e_uuid v) (e_gen v) now
        | _ => (s, Refused)
        end
    end.

Section Unlock.
(** Is the signature (second) of the message (first) by the authority right? *)
Variable sig_ok : list N -> list N -> bool.

(** device_unlock_token.c:314-332, device_unlock_token_authenicate *)
Definition authenticate (d : device) (s : tok) (data : list N) (v : ver_env) (now : N) : verdict :=
  match parse_container data with
  | Ret p => verify_data sig_ok (d_auth d) s data 2 (2 + p_policy_len p) v now
  | _ => NotValid
  end.

(** What applying a policy does: nothing, or unlock_device was called, and succeeded or failed. *)
Inductive applied := Rejected | Unlocked | UnlockFailed.

(** secure_device_unlock_policy.c:63-94, secure_device_unlock_policy_apply_unlock_policy; [ok] is the outcome of unlock_device.
    auth_token_invalidate never fails. *)
Definition apply_policy (d : device) (s : tok) (data : list N) (v : ver_env) (ok : bool) (now : N) : tok * applied :=
  match authenticate d s data v now with
  | Valid => if ok then (invalidate s, Unlocked) else (s, UnlockFailed)
  | _ => (s, Rejected)
  end.

(** Requests, with time passing between them; secure_device_unlock_policy.c:96-114, secure_device_unlock_policy_clear_unlock_policy, is
    [Clear]: the token is invalidated, then lock_device called. *)
Inductive op :=
| GetToken (buf : list N) (v : env)
| Apply (data : list N) (v : ver_env) (ok : bool)
| Clear
| Pass (ms : N).

(** What can be seen of a request, and when. *)
Inductive event := EToken (counter : option (list N)) (m : made) (now : N) | EApply (data : list N) (a : applied) (now : N) | EClear.

Definition step (d : device) (s : tok) (now : N) (o : op) : tok * N * list event :=
  match o with
  | GetToken buf v => let '(s, m) := get_unlock_token d s buf v now in (s, now, [EToken (e_counter v) m now])
  | Apply data v ok => let '(s, a) := apply_policy d s data v ok now in (s, now, [EApply data a now])
  | Clear => (invalidate s, now, [EClear])
  | Pass ms => (s, (now + ms)%N, [])
  end.

Fixpoint run (d : device) (s : tok) (now : N) (l : list op) : tok * N * list event :=
  match l with
  | [] => (s, now, [])
  | o :: l => let '(s, now, e) := step d s now o in let '(s, now, es) := run d s now l in (s, now, e ++ es)
  end.
End Unlock.
