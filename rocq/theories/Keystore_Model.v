(** * Model of the keystore in flash (core/keystore/keystore_flash.c)

    The keystore sits on a block store, FlashStore_Model, with whatever
    protection that has.  Modelled: the calls of the block store, the memory
    for the key, the codes that are replaced and what the caller gets.

    Simplified: pointers are not null and key ids are not negative; the faults
    during the two calls of one load are those of one device state. *)
From Coq Require Import List NArith Bool Arith.
From Verif Require Import Base Flash_Base FlashUtil_Model FlashStore_Model.
Import ListNotations.
Local Open Scope N_scope.

(** 0, KEYSTORE_NO_KEY, KEYSTORE_BAD_KEY, KEYSTORE_NO_MEMORY; any other error
    comes from the block store. *)
Inductive status := KOk | KNoKey | KBadKey | KNoMemory | KStore (e : fs_status).

(** What load_key leaves: its status, the key pointer (None is null), the
    length if it is written, and the buffers allocated and freed. *)
Record loaded := mkLoaded { l_status : status; l_key : option (list N); l_length : option N; l_allocated : nat; l_freed : nat }.

Section MODEL.
Variable sha : list N -> list N.
Variable encrypt : list N -> list N -> list N * list N.
Variable decrypt : list N -> list N -> list N -> option (list N).
Variable p : protection.
Variable s : fstore.

(** keystore_flash.c:43-49: errors of the length. *)
Definition length_error (e : fs_status) : status := match e with FsNoData => KNoKey | e => KStore e end.
(** keystore_flash.c:57-66: errors of reading. *)
Definition read_error (e : fs_status) : status :=
  match e with FsNoData => KNoKey | FsCorrupt => KBadKey | e => KStore e end.

(** keystore_flash_load_key (keystore_flash.c:24-80).  [memory]: the
    allocation works. *)
Definition load_key (f : faults) (memory : bool) (m : image) (id : N) : loaded :=
  match get_data_length f s m id with
  | inr e => mkLoaded (length_error e) None None 0 0
  | inl n =>
      if negb memory then mkLoaded KNoMemory None None 0 0
      else
        match fs_read sha decrypt p f s m id n with
        | inr e => mkLoaded (read_error e) None (Some 0) 1 1
        | inl d => mkLoaded KOk (Some d) (Some n) 1 0
        end
  end.

(** keystore_flash_save_key, _erase_key, _erase_all_keys (keystore_flash.c:12-22,
    82-102).  The IV is the one the block store generates if it encrypts. *)
Inductive key_op := Save (id : N) (key iv : list N) | Erase (id : N) | EraseAll.
Definition key_step (m : image) (f : faults) (o : key_op) : image * fs_status :=
  match o with
  | Save id k iv => fs_write sha encrypt p f s m id k iv
  | Erase id => fs_erase f s m id
  | EraseAll => fs_erase_all f s m
  end.

(** A history: each call with the faults during it; its result is recorded. *)
Fixpoint key_run (m : image) (l : list (faults * key_op)) : image * list (key_op * fs_status) :=
  match l with
  | [] => (m, [])
  | (f, o) :: l =>
      let '(m, r) := key_step m f o in
      let '(m, t) := key_run m l in (m, (o, r) :: t)
  end.
End MODEL.
