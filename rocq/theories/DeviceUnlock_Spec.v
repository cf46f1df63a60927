(** What the device unlock properties talk about. *)
From Coq Require Import List NArith Bool Arith.
From Verif Require Import Base ByteMath_Spec Auth_Model DeviceUnlock_Model.
Import ListNotations.

(** The layout of authorized unlock data (device_unlock_token.c and its header): the token and the policy, each after its length. *)
Definition body (token policy : list N) : list N :=
  le16 (N.of_nat (length token)) ++ token ++ le16 (N.of_nat (length policy)) ++ policy.
Definition fits (l : list N) : Prop := (N.of_nat (length l) < 65536)%N.

(** A UUID in a field of 16 bytes *)
Definition uuid_field (u : list N) : list N := firstn 16 (u ++ repeat 0%N 16).

(** The layout of a token *)
Definition token_text (oid uuid counter nonce signature : list N) : list N :=
  6%N :: N.of_nat (length oid) :: oid ++ [1%N; 0%N] ++ uuid_field uuid ++ [N.of_nat (length counter)] ++ counter ++ nonce ++ signature.

(** The token that can be used after the events, oldest first, and when it was made: a new token replaces the old one, and unlocking,
    clearing or failing to make a new one removes it. *)
Definition observe (p : option (list N * N)) (e : event) : option (list N * N) :=
  match e with
  | EToken _ (Issued t) now | EToken _ (Withheld t) now => Some (t, now)
  | EToken _ MakeFailed _ => None
  | EApply _ Unlocked _ => None
  | EClear => None
  | _ => p
  end.
Definition active (es : list event) : option (list N * N) := fold_left observe es None.

(** The tokens made. *)
Definition tokens (es : list event) : list (list N) :=
  flat_map (fun e => match e with EToken _ (Issued t) _ | EToken _ (Withheld t) _ => [t] | _ => [] end) es.

(** The counter of a device counts the bits set at its start: an even number for a locked device, an odd one for an unlocked device.
    [c'] is the counter [c] with the next odd number of bits: all that was set before the first clear bit with an odd number stays set,
    the bits before that one are set, and the bits after it are kept. *)
Definition locked (c : list N) : Prop := exists k, Nat.even k = true /\ is_leading_run (arr_bit c) (8 * length c) k.
Definition next_unlocked (c c' : list N) : Prop :=
  length c' = length c /\
  exists k, Nat.odd k = true /\ is_leading_run (arr_bit c') (8 * length c') k /\
    (forall i, arr_bit c' i = arr_bit c i || (i <? k)) /\ (forall j, j < k -> Nat.odd j = true -> arr_bit c j = true).

(** Everything that is handed to the code consists of bytes, and the security manager and the device write no more than asked for. *)
Definition bytes_opt (o : option (list N)) : Prop := match o with Some l => bytes_ok l | None => True end.
Definition op_ok (o : op) : Prop :=
  match o with
  | GetToken buf v => bytes_ok buf /\ bytes_opt (e_counter v) /\ bytes_opt (e_uuid v) /\ bytes_opt (Auth_Model.g_rng (e_gen v)) /\
      bytes_opt (Auth_Model.g_sign (e_gen v))
  | Apply data _ _ => bytes_ok data
  | _ => True
  end.
