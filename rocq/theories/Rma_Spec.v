(** * What a token for the transition to RMA is *)
From Coq Require Import List NArith Bool Arith.
From Verif Require Import Base Der_Spec Rma_Model.
Import ListNotations.

(** A UUID of up to 16 bytes, filled up with zeros. *)
Definition padded (u p : list N) : Prop := length p = 16 /\ exists z, Forall (eq 0%N) z /\ (p = u ++ z).

(** The text of a token for the device with this OID, UUID and Device ID
    digest: an ASN.1 object identifier, version 1, the magic number, the UUID
    and the digest. *)
Definition token_text (oid uuid dice text : list N) : Prop :=
  exists e p, item 6 oid e /\ padded uuid p /\ text = e ++ le16 1 ++ le32 0x52545354 ++ p ++ dice.

(** A token the device must accept: the text, followed by a signature of the
    authority over it, or by nothing if tokens are not signed. *)
Definition good_token (hash : list N -> list N) (right : list N -> list N -> list N -> bool)
  (oid uuid dice : list N) (authority : option (list N)) (token : list N) : Prop :=
  exists text signature, token_text oid uuid dice text /\ token = text ++ signature /\
  match authority with
  | Some key => key <> [] /\ signature <> [] /\ right key (hash text) signature = true
  | None => signature = []
  end.

(** The key in the verification engine and whether a hash is active, told from
    the calls. *)
Fixpoint key_left (k : option (list N)) (t : list call) : option (list N) :=
  match t with [] => k | SetKey k' true :: t => key_left k' t | _ :: t => key_left k t end.
Fixpoint hash_left (a : bool) (t : list call) : bool :=
  match t with
  | [] => a
  | HashStart :: t => hash_left true t
  | HashCancel :: t | HashFinish true :: t => hash_left false t
  | _ :: t => hash_left a t
  end.
