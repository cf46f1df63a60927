(** * What a keystore is supposed to hold

    Told from the calls made and their results alone, the last one first. *)
From Coq Require Import List NArith Bool.
From Verif Require Import Base FlashStore_Model FlashStore_Spec Keystore_Model.
Import ListNotations.
Local Open Scope N_scope.

(** Whether a call concerns the key [id]. *)
Definition concerns (id : N) (o : key_op) : bool :=
  match o with Save i _ _ | Erase i => i =? id | EraseAll => true end.

(** [key_is id calls k]: the last call that concerned the key [id] and was not
    refused for its arguments worked, and it saved [k] (Some k) or erased the
    key (None).  [calls] are in the order they were made. *)
Inductive key_is (id : N) : list (key_op * fs_status) -> option (list N) -> Prop :=
| saved : forall t k iv, key_is id (t ++ [(Save id k iv, FsOk)]) (Some k)
| erased : forall t, key_is id (t ++ [(Erase id, FsOk)]) None
| all_erased : forall t, key_is id (t ++ [(EraseAll, FsOk)]) None
| unconcerned : forall t o r k, concerns id o = false \/ refused r = true -> key_is id t k -> key_is id (t ++ [(o, r)]) k.

(** Keys and IVs are bytes. *)
Definition call_ok (o : key_op) : Prop :=
  match o with Save _ k iv => bytes_ok k /\ bytes_ok iv /\ length iv = IV_LENGTH | _ => True end.
