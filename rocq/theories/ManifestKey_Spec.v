(** What the properties of manifest keys talk about. *)
From Coq Require Import List NArith Bool Arith.
From Verif Require Import Base ManifestKey_Model.
Import ListNotations.

Section Spec.
Variables plen slen : nat.
Variables endorsed : list N -> list N -> bool.
Variable key_ok : list N -> bool.

(** [k] is a key with this id and public key that the root key signed, and the public key can be used: the id is in four little-endian
    bytes, followed by the public key and the signature. *)
Definition trusted (id : N) (p k : list N) : Prop :=
  exists h sg, k = h ++ p ++ sg /\ length h = 4 /\ le_value h = id /\ length p = plen /\ length sg = slen /\
    endorsed (h ++ p) sg = true /\ key_ok p = true.

(** Every firmware has a trusted default key. *)
Definition shipped (o : op) : Prop := match o with Boot d _ => exists id p, trusted id p d | _ => True end.
(** No call of the keystore loses its key. *)
Definition lossless (o : op) : Prop :=
  match o with Boot _ w => b_save w <> Lost | Activate _ _ w => a_save w <> Lost | UpdateStart w => w <> Lost | Verify _ _ _ => True end.
(** Calls that come between the activation of a manifest and a firmware update *)
Definition calm (o : op) : Prop := match o with Verify _ _ _ | UpdateStart _ => True | _ => False end.

Definition all_works : vworks := VWorks true true true true.
Definition boot_works : bworks := BWorks true true true Written true.
Definition act_works (s : save) : aworks := AWorks true true true true s.
End Spec.
