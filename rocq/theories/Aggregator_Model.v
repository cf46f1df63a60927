(** * Model of several flash stores used as one

    core/flash/flash_store_aggregator.c: all of it, on the interface of
    core/flash/flash_store.h.

    Modelled: finding the store of an id, with the subtraction in [int]; the
    calls on a block; erase_all over the stores; the sums and the minimum the
    queries return, with size_t and int of 32 bits.  An array entry may be
    NULL.

    External: the stores.  A call on a block is any function of what the block
    has (write, read, erase, get_data_length and has_data_stored, working or
    not); a store refuses ids that it does not have and leaves its other
    blocks alone, which is what C07 proves of
    flash_store_contiguous_blocks.c.  Counting the blocks, erasing all of them
    and the sizes may fail.

    Simplified: the aggregator itself is not NULL. *)
From Coq Require Import List ZArith Bool Arith.
Import ListNotations.
Local Open Scope Z_scope.

(** rot_status.h:29, for an int *)
Definition is_error (z : Z) : bool := (z <? 0) || ((0x7f000000 <=? z) && (z <? 0x80000000)).
(** flash_store.h:131, 142, 147, with the module of flash stores left out *)
Inductive code := InvalidArgument | NoStorage | UnsupportedId | Failed (e : Z) | Undefined.

Definition INT_MAX : Z := 0x7fffffff.
Definition in_int (z : Z) : bool := (- 0x80000000 <=? z) && (z <=? INT_MAX).
Definition to_int (z : Z) : Z := let z := z mod 0x100000000 in if z <=? INT_MAX then z else z - 0x100000000.

Section MODEL.
(** What a block has, and what a call on a block returns. *)
Variable B R : Type.

(** A store: its blocks, and what get_num_blocks returns if it fails;
    get_max_data_length and get_flash_size as they return. *)
Record store := Store { blocks : list B; count_fails : option Z; max_length : Z; size : Z }.
Definition num_blocks (s : store) : Z :=
  match count_fails s with Some e => e | None => Z.of_nat (length (blocks s)) end.
Definition set_blocks (s : store) (b : list B) : store := Store b (count_fails s) (max_length s) (size s).

Fixpoint replace {A} (l : list A) (i : nat) (x : A) : list A :=
  match l, i with
  | [], _ => []
  | _ :: l, O => x :: l
  | y :: l, S i => y :: replace l i x
  end.

(** A call on block [id] of a store (flash_store_contiguous_blocks.c:36, 361,
    466, 506: ids are checked). *)
Definition call (o : B -> R * B) (b : list B) (id : Z) : (R + code) * list B :=
  if id <? 0 then (inr UnsupportedId, b)
  else
    match nth_error b (Z.to_nat id) with
    | None => (inr UnsupportedId, b)
    | Some x => let '(r, y) := o x in (inl r, replace b (Z.to_nat id) y)
    end.

(** flash_store_aggregator_get_flash_store_and_block_index
    (flash_store_aggregator.c:23-58): the index of the store, and the id there. *)
Fixpoint find (l : list (option store)) (id : Z) : nat * Z + code :=
  match l with
  | [] => inr UnsupportedId
  | None :: _ => inr NoStorage
  | Some s :: l =>
      if is_error (num_blocks s) then inr (Failed (num_blocks s))
      else if id <? num_blocks s then inl (O, id)
      else if negb (in_int (id - num_blocks s)) then inr Undefined
      else match find l (id - num_blocks s) with inl (k, i) => inl (S k, i) | inr e => inr e end
  end.

(** flash_store_aggregtor_write, _read, _erase, _get_data_length and
    _has_data_stored (60-129, 154-198) *)
Definition block_call (o : B -> R * B) (l : list (option store)) (id : Z) : (R + code) * list (option store) :=
  match find l id with
  | inr e => (inr e, l)
  | inl (k, i) =>
      match nth_error l k with
      | Some (Some s) =>
          let '(r, b) := call o (blocks s) i in (r, replace l k (Some (set_blocks s b)))
      | _ => (inr Undefined, l)
      end
  end.

(** flash_store_aggregtor_erase_all (131-152): [clear k] is erase_all of the
    [k]th store; [status] is what the last store returned. *)
Fixpoint erase_from (clear : nat -> list B -> Z * list B) (k : nat) (status : Z) (l : list (option store))
  : (Z + code) * list (option store) :=
  match l with
  | [] => (inl status, [])
  | None :: l => (inr Undefined, None :: l)
  | Some s :: l =>
      let '(status, b) := clear k (blocks s) in
      if is_error status then (inl status, Some (set_blocks s b) :: l)
      else let '(r, l) := erase_from clear (S k) status l in (r, Some (set_blocks s b) :: l)
  end.
Definition erase_all (clear : nat -> list B -> Z * list B) (l : list (option store)) := erase_from clear 0 0 l.

(** flash_store_aggregtor_get_max_data_length (200-224) *)
Fixpoint max_from (m : Z) (l : list (option store)) : Z + code :=
  match l with
  | [] => inl m
  | None :: _ => inr Undefined
  | Some s :: l => if is_error (max_length s) then inl (max_length s) else max_from (Z.min m (max_length s)) l
  end.
Definition get_max_data_length (l : list (option store)) : Z + code := max_from INT_MAX l.

(** flash_store_aggregtor_get_flash_size (226-250): summed in size_t, returned
    as int. *)
Fixpoint size_from (n : Z) (l : list (option store)) : Z + code :=
  match l with
  | [] => inl (to_int n)
  | None :: _ => inr Undefined
  | Some s :: l => if is_error (size s) then inl (size s) else size_from ((n + size s) mod 0x100000000) l
  end.
Definition get_flash_size (l : list (option store)) : Z + code := size_from 0 l.

(** flash_store_aggregtor_get_num_blocks (252-276) *)
Fixpoint count_from (n : Z) (l : list (option store)) : Z + code :=
  match l with
  | [] => inl n
  | None :: _ => inr Undefined
  | Some s :: l =>
      if is_error (num_blocks s) then inl (num_blocks s)
      else if negb (in_int (n + num_blocks s)) then inr Undefined
      else count_from (n + num_blocks s) l
  end.
Definition get_num_blocks (l : list (option store)) : Z + code := count_from 0 l.

(** flash_store_aggregator_init (287-310) *)
Definition init (l : list (option store)) : code + list (option store) :=
  match l with [] => inl InvalidArgument | _ => inr l end.
End MODEL.

Arguments Store {B}. Arguments blocks {B}. Arguments count_fails {B}. Arguments max_length {B}. Arguments size {B}.
Arguments num_blocks {B}. Arguments set_blocks {B}. Arguments call {B R}. Arguments find {B}. Arguments block_call {B R}.
Arguments erase_from {B}. Arguments erase_all {B}. Arguments max_from {B}. Arguments get_max_data_length {B}.
Arguments size_from {B}. Arguments get_flash_size {B}. Arguments count_from {B}. Arguments get_num_blocks {B}.
Arguments init {B}.
