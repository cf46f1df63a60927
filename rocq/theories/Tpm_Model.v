(** Model of core/tpm/tpm.c: storage segments, the non-volatile counter and the delayed clear of the TPM
    storage.

    The flash store below is an abstract array of blocks (flash_store.h; its implementations are modelled
    elsewhere): a block holds data or none (no data or corrupt data).  Reads can fail; a write that fails
    leaves the old data, the new data or none, as after a power failure.  Simplifications: the store accepts
    any length up to its limit; get_num_blocks does not fail; nothing is logged; the buffer has room for
    the header (tpm.c does not check this). *)
From Coq Require Import List NArith Bool Arith.
From Verif Require Import Base.
Import ListNotations.
Local Open Scope N_scope.

(** The blocks of the store; their number; the size of a segment. *)
Definition blocks := nat -> option (list N).
Record config := { nb : nat; seg : nat; limit : nat }.

(** What happens to an access: reads work or not; writes work, fail with the old data, with none or with the
    new data. *)
Inductive wfate := Written | Kept | Lost | Stored.
Record fate := { f_read : bool; f_write : wfate }.
Definition env := nat -> fate.

(** [buffer] is the working memory; [tm] counts the accesses. *)
Record tpm := { store : blocks; buffer : list N; tm : nat }.

Definition put (f : blocks) (id : nat) (v : option (list N)) : blocks := fun i => if Nat.eqb i id then v else f i.

Definition with_buffer (b : list N) (s : tpm) : tpm := {| store := store s; buffer := b; tm := tm s |}.

(** flash_store.h:13-27, [write]. *)
Definition fwrite (c : config) (E : env) (id : nat) (d : list N) (s : tpm) : bool * tpm :=
  if Nat.ltb id (nb c) && Nat.leb (length d) (limit c) then
    let s' v := {| store := put (store s) id v; buffer := buffer s; tm := S (tm s) |} in
    match f_write (E (tm s)) with
    | Written => (true, s' (Some d))
    | Kept => (false, s' (store s id))
    | Lost => (false, s' None)
    | Stored => (false, s' (Some d))
    end
  else (false, s).

(** flash_store.h:28-40, [read]: at most [len] bytes. *)
Inductive rstatus := ROk (d : list N) | RNoData | RError.
Definition fread (c : config) (E : env) (id len : nat) (s : tpm) : rstatus * tpm :=
  if Nat.ltb id (nb c) then
    let s' := {| store := store s; buffer := buffer s; tm := S (tm s) |} in
    if f_read (E (tm s)) then
      match store s id with Some d => (ROk (firstn len d), s') | None => (RNoData, s') end
    else (RError, s')
  else (RError, s).

(** tpm.h:26-38, the header at the start of the buffer. *)
Definition magic (b : list N) : N := le_value (window 0 2 b).
Definition counter (b : list N) : N := le_value (window 4 8 b).
Definition clear (b : list N) : N := nth 12 b 0.
Definition tpm_magic : N := 44286. (* 0xACFE *)
Definition le64 (x : N) : list N := le32 (x mod 2 ^ 32) ++ le32 (x / 2 ^ 32).
Definition fresh (c : config) : list N := splice (repeat 0 (seg c)) 0 (le16 tpm_magic ++ le16 0).
Definition bump (b : list N) : list N := splice b 4 (le64 ((counter b + 1) mod 2 ^ 64)).
Definition flag (b : list N) : list N := splice b 12 [1].

(** tpm.c:45-52, the loop over the blocks [id], [id - 1], ... 1. *)
Fixpoint erase_loop (c : config) (E : env) (id : nat) (ok : bool) (s : tpm) : bool * tpm :=
  match id with
  | O => (ok, s)
  | S k => let '(r, s) := fwrite c E id (buffer s) s in erase_loop c E k (ok && r) s
  end.

(** tpm.c:28-71 *)
Definition init_header (c : config) (E : env) (clr write : bool) (s : tpm) : bool * tpm :=
  let '(eok, s) := if clr then erase_loop c E (nb c - 1) true (with_buffer (repeat 255 (seg c)) s) else (true, s) in
  let s := with_buffer (fresh c) s in
  if write then
    let '(r, s) := fwrite c E 0 (buffer s) s in (if r then eok else false, s)
  else (eok, s).

(** tpm.c:83-130 *)
Definition read_header (c : config) (E : env) (init write : bool) (s : tpm) : bool * tpm :=
  let '(r, s) := fread c E 0 (seg c) s in
  match r with
  | ROk d =>
    let s := with_buffer (splice (buffer s) 0 d) s in
    if magic (buffer s) =? tpm_magic then (true, s)
    else if init then init_header c E false write s else (false, s)
  | _ => if init then init_header c E false write s else (false, s)
  end.

(** tpm.c:346-375, the part after the check of the sizes. *)
Definition init_state (c : config) (E : env) (s : tpm) : bool * tpm :=
  let '(ok, s) := read_header c E true true s in
  if ok then if clear (buffer s) =? 1 then init_header c E true true s else (true, s)
  else (false, s).

(** tpm.c:137-163; no result is reported. *)
Definition on_soft_reset (c : config) (E : env) (s : tpm) : bool * tpm := init_state c E s.

(** tpm.c:172-196 *)
Definition schedule_clear (c : config) (E : env) (s : tpm) : bool * tpm :=
  let '(ok, s) := read_header c E true false s in
  if ok then
    if clear (buffer s) =? 1 then (true, s)
    else let s := with_buffer (flag (buffer s)) s in fwrite c E 0 (buffer s) s
  else (false, s).

(** tpm.c:205-223 *)
Definition increment (c : config) (E : env) (s : tpm) : bool * tpm :=
  let '(ok, s) := read_header c E true false s in
  if ok then let s := with_buffer (bump (buffer s)) s in fwrite c E 0 (buffer s) s else (false, s).

(** tpm.c:233-251 *)
Definition get_counter (c : config) (E : env) (s : tpm) : option N * tpm :=
  let '(ok, s) := read_header c E false false s in (if ok then Some (counter (buffer s)) else None, s).

(** tpm.c:263-270 *)
Definition set_storage (c : config) (E : env) (index : nat) (d : list N) (s : tpm) : bool * tpm := fwrite c E (S index) d s.

(** tpm.c:285-308 *)
Definition get_storage (c : config) (E : env) (index len : nat) (mask : bool) (s : tpm) : option (list N) * tpm :=
  let '(r, s) := fread c E (S index) len s in
  (match r with
   | ROk d => Some d
   | RNoData => if mask then Some (repeat 255 len) else None
   | RError => None
   end, s).

(** ** Histories *)
Inductive op := Boot | Reset | Schedule | Increment | GetCounter | Put (index : nat) (d : list N) | Get (index len : nat) (mask : bool).
Inductive result := Status (ok : bool) | Value (n : N) | Bytes (l : list N) | Silent.

Definition step (c : config) (E : env) (o : op) (s : tpm) : result * tpm :=
  match o with
  | Boot => let '(r, s) := init_state c E s in (Status r, s)
  | Reset => let '(_, s) := on_soft_reset c E s in (Silent, s)
  | Schedule => let '(r, s) := schedule_clear c E s in (Status r, s)
  | Increment => let '(r, s) := increment c E s in (Status r, s)
  | GetCounter => let '(r, s) := get_counter c E s in (match r with Some n => Value n | None => Status false end, s)
  | Put i d => let '(r, s) := set_storage c E i d s in (Status r, s)
  | Get i len m => let '(r, s) := get_storage c E i len m s in (match r with Some l => Bytes l | None => Status false end, s)
  end.

Fixpoint run (c : config) (E : env) (l : list op) (s : tpm) : list result * tpm :=
  match l with
  | [] => ([], s)
  | o :: t => let '(r, s) := step c E o s in let '(rs, s) := run c E t s in (r :: rs, s)
  end.
