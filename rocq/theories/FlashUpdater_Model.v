(** Flash updater: core/flash/flash_updater.c.
    Uses the flash utilities (FlashUtil_Model) for erasing, with the same device faults.
    Simplifications: NULL-pointer checks are dropped; `size_t` is 32 bits, as on the target. *)
From Coq Require Import List NArith ZArith Bool Arith.
From Verif Require Import Base Flash_Base FlashUtil_Model.
Import ListNotations.
Local Open Scope N_scope.

Definition w32 (x : N) : N := x mod 2 ^ 32.

(** struct flash_updater, flash_updater.h; update_size is an int. *)
Record updater := mk_upd { u_base : N; u_max : N; u_size : Z; u_off : N }.

Inductive ustatus := UOk | UTooLarge | UOutOfSpace | UIncomplete | UFlash (e : futil).

Section Updater.
Variable rfail efail : N -> bool.
Variable wres : N -> option nat.
Variable blk : N.    (* erase size of the variant: block or sector *)

(** flash_updater_init_common, flash_updater.c 23-38. *)
Definition upd_init (base max : N) : updater := mk_upd base max 0 0.

(** flash_updater_apply_update_offset, flash_updater.c 95-101. *)
Definition upd_apply_offset (u : updater) (off : N) : updater :=
  mk_upd (w32 (u_base u + off)) (w32 (u_max u + 2 ^ 32 - off)) (u_size u) (u_off u).

(** flash_updater_check_update_size, flash_updater.c 111-124. *)
Definition upd_check_size (u : updater) (total : N) : ustatus :=
  if u_max u <? total then UTooLarge else UOk.

(** flash_updater_prepare_update_flash, flash_updater.c 135-155. *)
Definition upd_prepare (u : updater) (m : image) (update_len erase_len : N) : updater * image * ustatus :=
  if u_max u <? update_len then (u, m, UTooLarge)
  else
    let '(m', r) := if erase_len =? 0 then (m, FuOk)
                    else erase_and_verify rfail efail blk m (u_base u) (N.to_nat erase_len) in
    match r with
    | FuOk => (mk_upd (u_base u) (u_max u) (Z.of_N update_len) 0, m', UOk)
    | e => (u, m', UFlash e)
    end.

(** flash_updater_prepare_for_update and _erase_all, flash_updater.c 167-191. *)
Definition prepare_for_update (u : updater) (m : image) (total : N) := upd_prepare u m total total.
Definition prepare_erase_all (u : updater) (m : image) (total : N) := upd_prepare u m total (u_max u).

(** flash_updater_write_update_data, flash_updater.c 207-230. *)
Definition upd_write (u : updater) (m : image) (data : list N) : updater * image * ustatus :=
  let len := N.of_nat (length data) in
  if u_max u <? w32 (u_off u + len) then (u, m, UOutOfSpace)
  else
    match dev_write wres m (w32 (u_base u + u_off u)) data with
    | (m', None) => (u, m', UFlash FuWriteErr)
    | (m', Some n) =>
      (mk_upd (u_base u) (u_max u) (u_size u - Z.of_nat n) (w32 (u_off u + N.of_nat n)), m',
       if (n =? length data)%nat then UOk else UIncomplete)
    end.

(** flash_updater_get_bytes_written and _get_remaining_bytes, flash_updater.c 239-265. *)
Definition bytes_written (u : updater) : N := u_off u.
Definition remaining_bytes (u : updater) : Z := u_size u.

(** All calls that can change an updater or its flash. *)
Inductive uop :=
| UPrepare (total : N) | UPrepareAll (total : N) | UWrite (data : list N) | UApplyOffset (off : N).

Definition uop_step (st : updater * image) (o : uop) : updater * image :=
  let '(u, m) := st in
  match o with
  | UPrepare t => fst (prepare_for_update u m t)
  | UPrepareAll t => fst (prepare_erase_all u m t)
  | UWrite d => fst (upd_write u m d)
  | UApplyOffset off => (upd_apply_offset u off, m)
  end.

Definition uop_run (st : updater * image) (l : list uop) : updater * image := fold_left uop_step l st.

(** A sequence of writes, each of which must succeed. *)
Fixpoint write_all (u : updater) (m : image) (ds : list (list N)) : option (updater * image) :=
  match ds with
  | [] => Some (u, m)
  | d :: r =>
    match upd_write u m d with
    | (u', m', UOk) => write_all u' m' r
    | _ => None
    end
  end.

End Updater.
