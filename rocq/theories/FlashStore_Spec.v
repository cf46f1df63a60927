(** What a block store is supposed to do, independent of how it lays data out. *)
From Coq Require Import List NArith Bool Arith.
From Verif Require Import Base Flash_Base FlashUtil_Model FlashStore_Model.
Import ListNotations.
Local Open Scope N_scope.

(** What is known about one block: nothing, the data stored last, or that it was erased. *)
Inductive content := Unknown | Stored (data : list N) | Erased.

(** How the result of a call changes what is known.  A call refused for its arguments changes nothing; a
    call that failed in the flash leaves the block it was aimed at in an unknown state. *)
Definition refused (r : fs_status) : bool :=
  match r with FsInvalidArg | FsUnsupportedId | FsBadLength => true | _ => false end.

Definition know (old new : content) (r : fs_status) : content :=
  match r with FsOk => new | _ => if refused r then old else Unknown end.

Definition spec_step (c : N -> content) (o : fs_op) (r : fs_status) : N -> content :=
  fun id =>
    match o with
    | OWrite i d _ => if i =? id then know (c id) (Stored d) r else c id
    | OErase i => if i =? id then know (c id) Erased r else c id
    | OEraseAll => know (c id) Erased r
    end.

(** A history of calls, each with the device faults that happen during it. *)
Fixpoint fs_history (step : image -> faults -> fs_op -> image * fs_status) (m : image) (c : N -> content)
  (l : list (faults * fs_op)) : image * (N -> content) :=
  match l with
  | [] => (m, c)
  | (f, o) :: r =>
    let '(m', st) := step m f o in fs_history step m' (spec_step c o st) r
  end.

(** The bytes of flash that belong to block [id] of a store at [base]: blocks grow upwards or
    downwards from there. *)
Definition block_start (base block : N) (decreasing : bool) (id : N) : N :=
  if decreasing then base - id * block else base + id * block.

(** A store that was set up properly: aligned sectors, all blocks inside the address space, and each
    block large enough for the header, the data and [extra] bytes of protection. *)
Record fs_ok (s : fstore) (extra : N) : Prop := {
  ok_sector : 4 <= fs_sector s;
  ok_aligned : fs_base s mod fs_sector s = 0;
  ok_block : 0 < fs_block s /\ fs_block s mod fs_sector s = 0;
  ok_count : 0 < fs_blocks s;
  ok_up : fs_decreasing s = false -> fs_base s + fs_block s * fs_blocks s <= 2 ^ 32 /\ fs_block s * fs_blocks s < 2 ^ 32;
  ok_down : fs_decreasing s = true ->
    fs_block s * (fs_blocks s - 1) <= fs_base s /\ fs_base s + fs_block s <= 2 ^ 32 /\
    fs_block s * fs_blocks s < 2 ^ 32;
  ok_size : (if fs_variable s then HEADER_LENGTH else 0) + fs_max s + extra <= fs_block s;
  ok_max16 : fs_max s < 65536;
  ok_max : fs_variable s = true -> fs_max s < 65535;
  ok_old : fs_old_header s = true -> fs_max s < 42240;
  ok_page : forall p, fs_page s = Some p -> 4 < p
}.

(** Power loss: a prefix of the device operations has been carried out; if [torn], the write in
    progress may have programmed only some of its leading bytes. *)
Inductive dop := DErase (a len : N) | DWrite (a : N) (data : list N).

Definition dop_do (m : image) (o : dop) : image :=
  match o with DErase a n => nor_erase m a n | DWrite a d => nor_write m a d end.

Definition dop_run (m : image) (l : list dop) : image := fold_left dop_do l m.

Definition same_image (m m' : image) : Prop := forall x, m' x = m x.

Definition interrupted (torn : bool) (m : image) (ops : list dop) (m' : image) : Prop :=
  exists n, (n <= length ops)%nat /\
    (same_image (dop_run m (firstn n ops)) m' \/
     (torn = true /\ exists a d k, nth_error ops n = Some (DWrite a d) /\
        same_image (nor_write (dop_run m (firstn n ops)) a (firstn k d)) m')).

(** The device operations of one write: erase the sectors of the block, then program. *)
Definition device_ops (s : fstore) (id : N) (data extra : list N) : list dop :=
  let a := block_addr s id in
  map (fun i => DErase (a + N.of_nat i * fs_sector s) (fs_sector s))
      (seq 0 (N.to_nat (fs_block s / fs_sector s))) ++
  map (fun w => DWrite (a + fst w) (snd w)) (store_writes s data extra).

Definition no_read_faults (f : faults) : Prop := forall x, f_read f x = false.

(** A device that does what it is told, for writes of up to [len] bytes. *)
Definition works (len : N) (f : faults) : Prop :=
  no_read_faults f /\ (forall x, f_erase f x = false) /\
  (forall x, exists n, f_write f x = Some n /\ len <= N.of_nat n).

(** What is required of the engines: digests and tags of fixed length, and that decryption inverts
    encryption. *)
Record engines_ok (sha : list N -> list N) (encrypt : list N -> list N -> list N * list N)
  (decrypt : list N -> list N -> list N -> option (list N)) : Prop := {
  sha_ok : forall d, length (sha d) = HASH_LENGTH /\ bytes_ok (sha d);
  enc_ok : forall iv d, length (fst (encrypt iv d)) = length d /\ length (snd (encrypt iv d)) = TAG_LENGTH /\
    bytes_ok (fst (encrypt iv d)) /\ bytes_ok (snd (encrypt iv d));
  dec_ok : forall iv d, bytes_ok d -> decrypt iv (fst (encrypt iv d)) (snd (encrypt iv d)) = Some d
}.

(** Calls with byte buffers and a full-length IV. *)
Definition fs_op_ok (o : fs_op) : Prop :=
  match o with
  | OWrite _ d iv => bytes_ok d /\ bytes_ok iv /\ length iv = IV_LENGTH
  | _ => True
  end.

(** The device operations of a write of [d], protected by a digest or encrypted with [iv]. *)
Definition fs_write_ops (sha : list N -> list N) (encrypt : list N -> list N -> list N * list N)
  (p : protection) (s : fstore) (id : N) (d iv : list N) : list dop :=
  match p with
  | PNone => device_ops s id d []
  | PHash => device_ops s id d (sha d)
  | PEncrypted => device_ops s id (fst (encrypt iv d)) (iv ++ snd (encrypt iv d))
  end.

(** Data the store accepts: not empty, not too long, and of exactly the configured length if the store is
    one of fixed-size blocks. *)
Definition acceptable (s : fstore) (d : list N) : Prop :=
  d <> [] /\ N.of_nat (length d) <= fs_max s /\ (fs_variable s = false -> N.of_nat (length d) = fs_max s).

(** The bytes of flash that belong to the store. *)
Definition store_bytes (s : fstore) (x : N) : Prop :=
  exists id, id < fs_blocks s /\
    let a := block_start (fs_base s) (fs_block s) (fs_decreasing s) id in a <= x < a + fs_block s.
