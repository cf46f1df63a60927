(** Protection of a host processor with two flash chips: core/host_fw/host_processor_filtered.c,
    host_processor_dual.c, host_processor_dual_full_bypass.c, host_flash_manager.c,
    host_flash_manager_dual.c, host_state_manager.c and core/spi_filter/spi_filter_irq_handler.c.

    What is abstract.  The content of a chip is a value of a type [C], a PFM one of [P] and a
    recovery image one of [Img].  What the flows do with them is only to look a firmware version up
    ([lookup]), to verify the images ([valid]), to compare the image lists of two PFMs ([same]) and
    to program a recovery image onto an erased chip ([applied]).  The functions behind these
    (host_fw_util.c) are modelled byte for byte in HostFw_Model.

    What can fail.  Every call to the SPI filter, to the host control, to a flash chip or to the PFM
    manager takes one answer from the oracle: it says whether the call fails, whether a call that
    fails had its effect all the same, and what a write leaves on the chip.  The loops that retry
    until a call succeeds run at most [fuel] times; [None] as a result says that the flow is still in
    such a loop, and the state is the one at that moment.

    Simplifications: the arguments are not NULL; the calls on the host state cannot fail (they only
    fail on NULL); logging, observers and the reset line of the host are left out; a flow runs with
    the lock held and takes the flash away from the host before it looks at the chips, so what the
    host does comes between the flows; the regions of [lookup] are the merged ones that
    host_fw_config_spi_filter_read_write_regions_multiple_fw passes to the filter (HostFw_Model). *)
From Coq Require Import List NArith Bool Arith.
From Verif Require Import HostFw_Model.
Import ListNotations.

(** Status codes that the flows tell apart.  [SValidation] stands for the four codes of
    IS_VALIDATION_FAILURE, host_processor.h 22-24; [SOther] for any error without a special meaning. *)
Inductive status :=
  | SOk | SValidation | SOther | SUnsupFlash | SUnsupRw | SRwSkipped
  | SNoRollback | SRollbackDirty | SFlashNotSupported | SRecoveryUnsupported | SNoRecoveryImage
  | SNothingToVerify | SNoActiveRwData | SConfigUnsupported.

Definition ok (r : status) : bool := match r with SOk => true | _ => false end.
Definition validation_failure (r : status) : bool := match r with SValidation => true | _ => false end.

(** spi_filter_flash_mode, spi_filter_interface.h: both chips in use, or one chip without any
    filtering.  A chip select is a boolean, [false] for SPI_FILTER_CS_0. *)
Inductive mode := Dual | Through (cs : bool).

(** enum host_state_prevalidated, host_state_manager.h. *)
Inductive prevalidated := PNone | PFlash | PFlashAndPfm.

(** enum host_read_only_activation, host_state_manager.h 64-82. *)
Inductive activation := OnPorOnly | OnPorAndReset | OnPorAndRunTime | OnAll.

Definition activation_eqb (a b : activation) : bool :=
  match a, b with
  | OnPorOnly, OnPorOnly | OnPorAndReset, OnPorAndReset
  | OnPorAndRunTime, OnPorAndRunTime | OnAll, OnAll => true
  | _, _ => false
  end.

(** enum host_processor_filtered_dirty, host_processor_filtered.h. *)
Inductive dirty_handling := DirtyNormal | DirtyIgnore | DirtyForce.

Section HostProc.

Variables (P C Img : Type).

(** The regions the PFM defines as read/write for the firmware that is on the chip, if the PFM
    supports that firmware: host_flash_manager_get_image_entry for each firmware type,
    host_flash_manager.c 27-64. *)
Variable lookup : P -> C -> option (list region).
(** The verification of the images, host_fw_full_flash_verification_multiple_fw ([true]) or
    host_fw_verify_offset_images_multiple_fw ([false]). *)
Variable valid : bool -> P -> C -> bool.
(** The image lists of the two PFMs for the firmware on the chip are the same:
    host_flash_manager.c 287-296. *)
Variable same : P -> P -> C -> bool.
(** pfm->base.is_empty, pfm_flash.c 219-246. *)
Variable empty : P -> bool.
(** A chip that was erased and then programmed with a recovery image. *)
Variable applied : Img -> C.

(** Configuration fixed when the instance is initialised: [full_bypass] for
    host_processor_dual_full_bypass.c, [reset_flash] as in host_processor_filtered.c 66, and whether
    there is a recovery image manager. *)
Record config := mkConfig { full_bypass : bool; reset_flash : bool; has_recovery : bool }.

Record st := mkSt {
  chip : bool -> C;                     (* the two flash chips *)
  f_on : bool;                          (* SPI filter enabled *)
  f_mode : mode;
  f_ro : bool;                          (* chip the filter uses as the read-only one *)
  f_rw : list region;                   (* regions the filter lets the host write *)
  f_dirty : bool;
  acc : bool;                           (* the host control lets the host at the flash *)
  nv_ro : bool; ovr : option bool;      (* host state: read-only chip and its override *)
  dirty : bool; events : activation;
  pfm_dirty : bool; preval : prevalidated; byp : bool; unsup : bool;
  act : option P; pend : option P;      (* PFM manager *)
  rec : option Img;                     (* active recovery image *)
  tick : nat }.

Record answer := mkA { a_err : bool; a_eff : bool; a_unsup : bool; a_content : C }.

(** [act_ok]: whether activate_pending_manifest succeeds in this flow. *)
Record oracle := mkO { ask : nat -> answer; act_ok : bool; fuel : nat }.

Variable c : config.
Variable o : oracle.

(** Updates of single fields. *)
Definition w_chip (cs : bool) (v : C) (s : st) : st :=
  mkSt (fun x => if Bool.eqb x cs then v else chip s x) (f_on s) (f_mode s) (f_ro s) (f_rw s) (f_dirty s) (acc s) (nv_ro s)
    (ovr s) (dirty s) (events s) (pfm_dirty s) (preval s) (byp s) (unsup s) (act s) (pend s) (rec s) (tick s).
Definition w_on (v : bool) (s : st) : st :=
  mkSt (chip s) v (f_mode s) (f_ro s) (f_rw s) (f_dirty s) (acc s) (nv_ro s)
    (ovr s) (dirty s) (events s) (pfm_dirty s) (preval s) (byp s) (unsup s) (act s) (pend s) (rec s) (tick s).
Definition w_mode (v : mode) (s : st) : st :=
  mkSt (chip s) (f_on s) v (f_ro s) (f_rw s) (f_dirty s) (acc s) (nv_ro s)
    (ovr s) (dirty s) (events s) (pfm_dirty s) (preval s) (byp s) (unsup s) (act s) (pend s) (rec s) (tick s).
Definition w_ro (v : bool) (s : st) : st :=
  mkSt (chip s) (f_on s) (f_mode s) v (f_rw s) (f_dirty s) (acc s) (nv_ro s)
    (ovr s) (dirty s) (events s) (pfm_dirty s) (preval s) (byp s) (unsup s) (act s) (pend s) (rec s) (tick s).
Definition w_rw (v : list region) (s : st) : st :=
  mkSt (chip s) (f_on s) (f_mode s) (f_ro s) v (f_dirty s) (acc s) (nv_ro s)
    (ovr s) (dirty s) (events s) (pfm_dirty s) (preval s) (byp s) (unsup s) (act s) (pend s) (rec s) (tick s).
Definition w_fdirty (v : bool) (s : st) : st :=
  mkSt (chip s) (f_on s) (f_mode s) (f_ro s) (f_rw s) v (acc s) (nv_ro s)
    (ovr s) (dirty s) (events s) (pfm_dirty s) (preval s) (byp s) (unsup s) (act s) (pend s) (rec s) (tick s).
Definition w_acc (v : bool) (s : st) : st :=
  mkSt (chip s) (f_on s) (f_mode s) (f_ro s) (f_rw s) (f_dirty s) v (nv_ro s)
    (ovr s) (dirty s) (events s) (pfm_dirty s) (preval s) (byp s) (unsup s) (act s) (pend s) (rec s) (tick s).
Definition w_nv (v : bool) (s : st) : st :=
  mkSt (chip s) (f_on s) (f_mode s) (f_ro s) (f_rw s) (f_dirty s) (acc s) v
    (ovr s) (dirty s) (events s) (pfm_dirty s) (preval s) (byp s) (unsup s) (act s) (pend s) (rec s) (tick s).
Definition w_ovr (v : option bool) (s : st) : st :=
  mkSt (chip s) (f_on s) (f_mode s) (f_ro s) (f_rw s) (f_dirty s) (acc s) (nv_ro s)
    v (dirty s) (events s) (pfm_dirty s) (preval s) (byp s) (unsup s) (act s) (pend s) (rec s) (tick s).
(** host_state_manager_save_inactive_dirty, host_state_manager.c 454-484: setting the state drops
    what was verified ahead of a reset. *)
Definition w_dirty (v : bool) (s : st) : st :=
  mkSt (chip s) (f_on s) (f_mode s) (f_ro s) (f_rw s) (f_dirty s) (acc s) (nv_ro s)
    (ovr s) v (events s) (pfm_dirty s) (if v then PNone else preval s) (byp s) (unsup s) (act s) (pend s) (rec s) (tick s).
Definition w_events (v : activation) (s : st) : st :=
  mkSt (chip s) (f_on s) (f_mode s) (f_ro s) (f_rw s) (f_dirty s) (acc s) (nv_ro s)
    (ovr s) (dirty s) v (pfm_dirty s) (preval s) (byp s) (unsup s) (act s) (pend s) (rec s) (tick s).
Definition w_pfm_dirty (v : bool) (s : st) : st :=
  mkSt (chip s) (f_on s) (f_mode s) (f_ro s) (f_rw s) (f_dirty s) (acc s) (nv_ro s)
    (ovr s) (dirty s) (events s) v (preval s) (byp s) (unsup s) (act s) (pend s) (rec s) (tick s).
Definition w_preval (v : prevalidated) (s : st) : st :=
  mkSt (chip s) (f_on s) (f_mode s) (f_ro s) (f_rw s) (f_dirty s) (acc s) (nv_ro s)
    (ovr s) (dirty s) (events s) (pfm_dirty s) v (byp s) (unsup s) (act s) (pend s) (rec s) (tick s).
Definition w_byp (v : bool) (s : st) : st :=
  mkSt (chip s) (f_on s) (f_mode s) (f_ro s) (f_rw s) (f_dirty s) (acc s) (nv_ro s)
    (ovr s) (dirty s) (events s) (pfm_dirty s) (preval s) v (unsup s) (act s) (pend s) (rec s) (tick s).
Definition w_unsup (v : bool) (s : st) : st :=
  mkSt (chip s) (f_on s) (f_mode s) (f_ro s) (f_rw s) (f_dirty s) (acc s) (nv_ro s)
    (ovr s) (dirty s) (events s) (pfm_dirty s) (preval s) (byp s) v (act s) (pend s) (rec s) (tick s).
Definition w_pfms (a p : option P) (s : st) : st :=
  mkSt (chip s) (f_on s) (f_mode s) (f_ro s) (f_rw s) (f_dirty s) (acc s) (nv_ro s)
    (ovr s) (dirty s) (events s) (pfm_dirty s) (preval s) (byp s) (unsup s) a p (rec s) (tick s).
Definition w_rec (v : option Img) (s : st) : st :=
  mkSt (chip s) (f_on s) (f_mode s) (f_ro s) (f_rw s) (f_dirty s) (acc s) (nv_ro s)
    (ovr s) (dirty s) (events s) (pfm_dirty s) (preval s) (byp s) (unsup s) (act s) (pend s) v (tick s).
Definition next (s : st) : st :=
  mkSt (chip s) (f_on s) (f_mode s) (f_ro s) (f_rw s) (f_dirty s) (acc s) (nv_ro s)
    (ovr s) (dirty s) (events s) (pfm_dirty s) (preval s) (byp s) (unsup s) (act s) (pend s) (rec s) (S (tick s)).

(** A flow: the state it leaves, and its result unless it is still in a retry loop. *)
Definition M (A : Type) : Type := st -> st * option A.
Definition ret {A} (a : A) : M A := fun s => (s, Some a).
Definition bind {A B} (m : M A) (f : A -> M B) : M B :=
  fun s => match m s with (s', Some a) => f a s' | (s', None) => (s', None) end.
Definition get {A} (f : st -> A) : M A := fun s => (s, Some (f s)).
Definition set (f : st -> st) : M unit := fun s => (f s, Some tt).
Definition spin {A} : M A := fun s => (s, None).

Notation "x <- m ; k" := (bind m (fun x => k)) (at level 100, m at next level, right associativity).
Notation "m ;; k" := (bind m (fun _ => k)) (at level 100, right associativity).

(** One call to a component outside the flow, with what it does to the state. *)
Definition call (eff : st -> st) : M status :=
  fun s =>
    let a := ask o (tick s) in
    if a_err a
    then (next (if a_eff a then eff s else s), Some (if a_unsup a then SUnsupFlash else SOther))
    else (next (eff s), Some SOk).

(** A call that writes a chip: whatever it leaves there, also when it fails. *)
Definition call_write (cs : bool) : M status :=
  fun s =>
    let a := ask o (tick s) in
    (next (w_chip cs (a_content a) s), Some (if a_err a then SOther else SOk)).

(** [m], and [k] if it succeeded. *)
Definition andthen (m : M status) (k : M status) : M status :=
  r <- m; if ok r then k else ret r.

(** do { status = ... } while (status != 0). *)
Fixpoint retry (n : nat) (m : M status) : M unit :=
  match n with
  | O => spin
  | S n' => r <- m; if ok r then ret tt else retry n' m
  end.

(** At most [n] more attempts. *)
Fixpoint attempts (n : nat) (stop : status -> bool) (m : M status) : M status :=
  r <- m;
  match n with
  | O => ret r
  | S n' => if ok r || stop r then ret r else attempts n' stop m
  end.

(** host_state_manager_get_read_only_flash, host_state_manager.c 282-291. *)
Definition ro (s : st) : bool := match ovr s with Some b => b | None => nv_ro s end.

(** host_flash_manager_set_flash_for_rot_access, host_flash_manager.c 647-685.  The last call stands
    for the initialisation of the chips. *)
Definition rot_access : M status :=
  andthen (call (w_on false)) (andthen (call (w_acc false)) (call (fun s => s))).

(** host_flash_manager_set_flash_for_host_access, host_flash_manager.c 695-706, retried by
    host_processor_filtered_set_host_flash_access, host_processor_filtered.c 219-240. *)
Definition host_access : M unit :=
  retry (fuel o) (andthen (call (w_acc true)) (call (w_on true))).

(** host_processor_filtered_initial_rot_flash_access, host_processor_filtered.c 135-211. *)
Definition unsupported (r : status) : bool := match r with SUnsupFlash => true | _ => false end.
Definition initial_rot_access : M status :=
  r <- attempts 4 unsupported rot_access;
  if negb (ok r) then set (w_unsup true);; ret r
  else
    r <- attempts 4 unsupported (call (fun s => s));
    if negb (ok r) then set (w_unsup true);; ret r
    else set (w_unsup false);; ret SOk.

(** The regions are cleared and then set one after the other:
    host_fw_config_spi_filter_read_write_regions_multiple_fw, host_fw_util.c 1038-1092. *)
Definition call_add (r : region) : M status :=
  fun s =>
    let a := ask o (tick s) in
    let s' := w_rw (f_rw s ++ [r]) s in
    if a_err a
    then (next (if a_eff a then s' else s), Some (if a_unsup a then SUnsupRw else SOther))
    else (next s', Some SOk).
Fixpoint add_regions (l : list region) : M status :=
  match l with [] => ret SOk | r :: l' => andthen (call_add r) (add_regions l') end.
Definition set_regions (l : list region) : M status :=
  andthen (call (w_rw [])) (add_regions l).

(** host_processor_filtered_config_rw, host_processor_filtered.c 323-354. *)
Fixpoint config_rw (n : nat) (l : list region) : M unit :=
  match n with
  | O => spin
  | S n' =>
    r <- set_regions l;
    match r with SOk => ret tt | SUnsupRw => ret tt | _ => config_rw n' l end
  end.

(** host_processor_filtered_clear_rw, host_processor_filtered.c 1208-1228. *)
Definition clear_rw : M unit := retry (fuel o) (call (w_rw [])).

(** host_flash_manager_dual_config_spi_filter_flash_devices, host_flash_manager_dual.c 114-127,
    retried by host_processor_filtered_config_flash, host_processor_filtered.c 365-385. *)
Definition config_flash : M unit :=
  retry (fuel o) (v <- get ro; call (w_ro v)).

(** host_processor_dual_full_read_write_flash, host_processor_dual.c 470-489, or
    host_processor_dual_full_bypass_enable_bypass_mode, host_processor_dual_full_bypass.c 11-16. *)
Definition enable_bypass : M status :=
  v <- get ro;
  if full_bypass c then call (w_mode (Through v))
  else andthen (set_regions [mkR 0 0xffff0000]) (call (w_ro (negb v))).

(** host_processor_filtered_config_bypass, host_processor_filtered.c 252-276. *)
Definition config_bypass : M unit :=
  retry (fuel o) enable_bypass;; set (w_byp true).

(** manager->activate_pending_manifest. *)
Definition activate_pending : M unit :=
  set (fun s =>
    match pend s with
    | Some p => if act_ok o then w_pfms (Some p) None s else s
    | None => s
    end).

(** manager->clear_all_manifests, manifest_manager_flash.c 558-583: the pending one first. *)
Definition clear_all : M status :=
  andthen (call (fun s => w_pfms (act s) None s)) (call (fun s => w_pfms None (pend s) s)).

(** host_flash_manager_dual_swap_flash_devices, host_flash_manager_dual.c 155-200. *)
Definition swap_devices (migrate used_pending : bool) : M status :=
  andthen (call (w_fdirty false)) (
  rw <- get (fun s => negb (ro s));
  andthen (call (w_ro rw)) (
  andthen (if migrate then call_write (negb rw) else ret SOk) (
  set (w_nv rw);; set (w_dirty false);;
  (if used_pending then activate_pending else ret tt);;
  ret SOk))).

(** host_processor_filtered_swap_flash, host_processor_filtered.c 399-425. *)
Definition swap_flash (l : list region) (used_pending no_migrate : bool) : M unit :=
  retry (fuel o) (swap_devices (negb no_migrate) used_pending);;
  config_rw (fuel o) l;;
  set (w_preval PNone).

(** host_flash_manager_dual_initialize_flash_protection, host_flash_manager_dual.c 202-267, retried
    by host_processor_filtered_initialize_protection, host_processor_filtered.c 288-311.  The two
    calls without effect set the address mode of the chips and of the filter. *)
Definition init_protection : M unit :=
  retry (fuel o) (
    andthen (call (fun s => s)) (
    v <- get ro;
    andthen (call_write (negb v)) (
    andthen (call (w_fdirty false)) (
    set (w_dirty false);;
    andthen (call (fun s => s)) (
    andthen (call (w_mode Dual)) (call (w_ro v)))))));;
  set (w_byp false).

(** host_flash_manager_validate_flash, host_flash_manager.c 169-241. *)
Definition check_flash (full : bool) (p : P) (cs : bool) : M (status * list region) :=
  fun s =>
    let a := ask o (tick s) in
    (next s, Some (
      if a_err a then (SOther, [])
      else match lookup p (chip s cs) with
           | Some l => if valid full p (chip s cs) then (SOk, l) else (SValidation, [])
           | None => (SValidation, [])
           end)).

(** host_flash_manager_validate_pfm, host_flash_manager.c 257-315.  When the comparison with the
    other PFM fails, the images are verified. *)
Definition check_pfm (p good : P) (cs : bool) : M (status * list region) :=
  fun s =>
    let a := ask o (tick s) in
    (next s, Some (
      if a_err a then (SOther, [])
      else match lookup p (chip s cs) with
           | Some l =>
             if (same p good (chip s cs) && negb (a_eff a)) || valid false p (chip s cs)
             then (SOk, l) else (SValidation, [])
           | None => (SValidation, [])
           end)).

(** host_flash_manager_dual_validate_read_only_flash, host_flash_manager_dual.c 53-75. *)
Definition validate_ro (p : P) (good : option P) (full : bool) : M (status * list region) :=
  v <- get ro;
  match good with
  | Some g => if full then check_flash full p v else check_pfm p g v
  | None => check_flash full p v
  end.

(** host_flash_manager_dual_validate_read_write_flash, host_flash_manager_dual.c 77-88. *)
Definition validate_rw (p : P) : M (status * list region) :=
  v <- get ro; check_flash true p (negb v).

(** host_flash_manager_get_flash_read_write_regions, host_flash_manager.c 356-393. *)
Definition find_regions (p : P) (cs : bool) : M (status * list region) :=
  fun s =>
    let a := ask o (tick s) in
    (next s, Some (
      if a_err a then (SOther, [])
      else match lookup p (chip s cs) with Some l => (SOk, l) | None => (SValidation, []) end)).

(** host_processor_filtered_restore_read_write_data, host_processor_filtered.c 442-482, and
    host_flash_manager_dual_restore_flash_read_write_regions, host_flash_manager_dual.c 269-284. *)
Definition restore_with_list : M status :=
  attempts 2 (fun _ => false) (
    set (w_preval PNone);; v <- get ro; call_write (negb v)).
Definition restore_with_pfm (p : P) : M status :=
  v <- get ro;
  r <- find_regions p v;
  if ok (fst r) then restore_with_list else ret (fst r).

(** host_processor_filtered_validate_flash, host_processor_filtered.c 509-679.  [apply_filter_cfg] is
    true and [config_fail] NULL in all three places that call it, so they are left out, as is
    [single], which is false for two chips. *)
Definition validate_flash (p : P) (active : option P)
    (is_pending is_bypass skip_rw skip_ro skip_ro_config is_validated : bool) : M status :=
  pd <- get pfm_dirty;
  idirty <- get dirty;
  let checked_rw := negb skip_rw && negb is_bypass && idirty in
  x <- (if checked_rw then
          y <- (if negb is_validated then set (w_preval PNone);; validate_rw p
                else v <- get ro; find_regions p (negb v));
          if ok (fst y)
          then
            swap_flash (snd y) is_pending false;;
            ret (SOk, false)
          else
            (if (skip_ro && negb is_pending) || is_validated
             then match (if is_pending then active else Some p) with
                  | Some q => restore_with_pfm q;; ret tt
                  | None => set (w_preval PNone)      (* restoring without a list always fails *)
                  end
             else ret tt);;
            (if negb (validation_failure (fst y)) && is_pending && negb is_validated
             then set (w_pfm_dirty true) else ret tt);;
            ret (fst y, validation_failure (fst y))
        else ret (SRwSkipped, false));
  let failed_rw := checked_rw && negb (ok (fst x)) in
  let dirty_fail := snd x in
  status <- (
    if negb skip_ro && negb (ok (fst x)) && (negb is_pending || is_bypass || pd)
    then
      y <- validate_ro p active is_bypass;
      if ok (fst y)
      then
        (if is_bypass then init_protection
         else if failed_rw then restore_with_list;; ret tt else ret tt);;
        (if is_pending then activate_pending else ret tt);;
        (if negb is_bypass && negb skip_ro_config then config_flash else ret tt);;
        config_rw (fuel o) (snd y);;
        ret SOk
      else
        (if is_pending && validation_failure (fst y) && (negb checked_rw || dirty_fail)
         then set (w_pfm_dirty false) else ret tt);;
        ret (fst y)
    else ret (fst x));
  (if dirty_fail && (negb is_pending || is_validated || ok status ||
        (is_pending && match active with None => true | Some _ => false end && skip_ro_config))
   then r <- call (w_fdirty false); if ok r then set (w_dirty false) else ret tt
   else ret tt);;
  ret status.

(** host_processor_filtered_check_force_bypass_mode, host_processor_filtered.c 691-728: the status it
    returns, the one of the check, and the PFMs that are still considered. *)
Definition check_force_bypass (a : option P) (q : P) : M (status * status * option P * option P) :=
  r <- call (fun s => s);
  if negb (ok r) then ret (SOk, SOther, a, None)
  else if empty q then
    r <- clear_all;
    if ok r then ret (SOk, SOk, None, None) else ret (r, SOk, None, None)
  else ret (SOk, SOk, a, Some q).

(** host_processor_filtered_power_on_reset, host_processor_filtered.c 740-848. *)
Definition power_on_flows (a q : option P) (empty_status : status) : M (status * bool) :=
  match a, q with
  | Some p, _ =>
    r <- match q with
         | Some q' => validate_flash q' None true false false false false false
         | None => (if ok empty_status then set (w_pfm_dirty false) else ret tt);; ret empty_status
         end;
    (if match q with None => true | Some _ => negb (ok r) end
     then
       r <- validate_flash p None false false false false false false;
       ret (r, ok r)
     else ret (r, true))
  | None, Some q' =>
    r <- validate_flash q' None true true false false false false;
    if ok r then ret (SOk, true)
    else if negb (validation_failure r) then ret (r, false)
    else config_bypass;; ret (SOk, true)
  | None, None =>
    call (w_fdirty false);;
    set (w_dirty false);; set (w_pfm_dirty false);;
    config_bypass;; ret (SOk, true)
  end.

Definition power_on : M status :=
  set (w_pfm_dirty true);; set (w_byp false);; set (w_ovr None);;
  r <- initial_rot_access;
  if negb (ok r) then host_access;; ret r
  else
    a <- get act;
    q <- get pend;
    x <- match q with
         | Some q' => check_force_bypass a q'
         | None => ret (SOk, SOk, a, None)
         end;
    let '(r, empty_status, a, q) := x in
    if negb (ok r) then host_access;; ret r
    else
      y <- power_on_flows a q empty_status;
      if snd y then host_access;; ret (fst y) else ret (fst y).

(** host_processor_dual_prepare_verification, host_processor_dual.c 399-431. *)
Definition prepare (ignore : activation) (a q : option P) : M dirty_handling :=
  b <- get byp;
  v <- get ro;
  nv <- get nv_ro;
  e <- get events;
  if activation_eqb e OnPorOnly || activation_eqb e ignore then ret DirtyIgnore
  else
    h <- (if negb (Bool.eqb v nv)
          then
            (if negb b && match a, q with None, None => false | _, _ => true end
             then set (w_nv v) else ret tt);;
            set (w_dirty true);; ret DirtyForce
          else ret DirtyNormal);
    set (w_ovr None);;
    ret h.

(** host_processor_dual_finalize_verification, host_processor_dual.c 433-460. *)
Definition finalize : M unit :=
  v <- get ro;
  nv <- get nv_ro;
  b <- get byp;
  h <- get (fun s => match ovr s with Some _ => true | None => false end);
  if b then (if Bool.eqb v nv then set (w_ovr None) else ret tt)
  else if h then
    set (w_nv v);; set (w_ovr None);; set (w_dirty (negb (Bool.eqb v nv)))
  else ret tt.

(** host_processor_filtered_clear_host_dirty_state, host_processor_filtered.c 880-888. *)
Definition clear_host_dirty (no_pfm : bool) : M unit :=
  set (w_pfm_dirty false);;
  if no_pfm then call (w_fdirty false);; set (w_dirty false) else ret tt.

Definition is_some {A} (x : option A) : bool := match x with Some _ => true | None => false end.

(** The verification of host_processor_filtered_update_verification once the flash has been taken,
    host_processor_filtered.c 1006-1066. *)
Definition update_flows (a q : option P) (status0 : status) (bypass force ignore_dirty idirty : bool) : M status :=
  flash_checked <- (if negb bypass then get preval else ret PNone);
  set (w_preval PNone);;
  pd <- get pfm_dirty;
  let prev :=
    match q with
    | Some _ => negb bypass && is_some a &&
                match flash_checked with PFlashAndPfm => negb pd | _ => false end
    | None => false
    end in
  r <- match q with
       | Some q' =>
         let nothing := negb bypass && is_some a &&
                        match flash_checked with PFlash => negb pd | _ => false end in
         let r := if nothing then SNothingToVerify else status0 in
         if ok r
         then validate_flash q' (if bypass then None else a) true bypass ignore_dirty prev true prev
         else ret r
       | None => (if ok status0 then set (w_pfm_dirty false) else ret tt);; ret status0
       end;
  let only_validated := ok status0 && prev in
  match a, q with
  | Some p, None =>
    validate_flash p None false bypass ignore_dirty (negb bypass) true
      (match flash_checked with PFlash => true | _ => false end)
  | Some p, Some _ =>
    if negb (ok r) && negb only_validated && (idirty || bypass)
    then
      validate_flash p None false bypass ignore_dirty (negb bypass) true
        (match flash_checked with PFlash => true | _ => false end)
    else ret r
  | None, Some _ => ret r
  | None, None =>
    call (w_fdirty false);;
    set (w_dirty false);; set (w_pfm_dirty false);;
    (if negb bypass || force then config_bypass else ret tt);;
    ret r
  end.

(** host_processor_filtered_update_verification, host_processor_filtered.c 904-1111.  The reset of
    the chips (856-872) is one call; its result does not matter. *)
Definition update_verification (reset : bool) (ignore : activation) (bypass_status : status) : M status :=
  u <- get unsup;
  if u then ret SFlashNotSupported
  else
  a <- get act;
  q <- get pend;
  x <- match q with
       | Some q' => check_force_bypass a q'
       | None => ret (SOk, SOk, a, None)
       end;
  let '(r, empty_status, a', q') := x in
  if negb (ok r) then finalize;; ret r
  else
    let r := if is_some a || is_some q then SOk else bypass_status in
    let a := a' in
    let q := q' in
    h <- prepare ignore a q;
    bypass <- get byp;
    d <- get dirty;
    let ignore_dirty := match h with DirtyIgnore => true | _ => false end in
    let force := match h with DirtyForce => true | _ => false end in
    let idirty := match h with DirtyIgnore => false | _ => d end in
    let no_pfm := negb (is_some a) && negb (is_some q) in
    let check := force || is_some q || negb (ok empty_status) || (no_pfm && negb bypass) ||
                 (is_some a && (idirty || bypass)) in
    pd <- get pfm_dirty;
    let no_change := negb idirty && negb bypass && negb pd && (is_some a || is_some q) in
    let reset_chips := reset_flash c && reset in
    r <- (if check || reset_chips
          then
            if negb reset_chips && no_change then ret r
            else
              r <- rot_access;
              (if reset_chips && ok r then call (fun s => s);; ret tt else ret tt);;
              r <- (if negb (ok r) || negb check || no_change
                    then
                      (if negb check then clear_host_dirty no_pfm else ret tt);;
                      ret r
                    else if negb (ok empty_status) && (negb (is_some a) || negb idirty)
                    then ret empty_status
                    else update_flows a q empty_status bypass force ignore_dirty idirty);
              host_access;; ret r
          else clear_host_dirty no_pfm;; ret r);
    finalize;;
    ret r.

(** host_processor_dual_soft_reset and host_processor_dual_run_time_verification,
    host_processor_dual.c 52-76. *)
Definition soft_reset : M status := update_verification true OnPorAndRunTime SOk.
Definition run_time_verification : M status := update_verification false OnPorAndReset SNothingToVerify.

(** host_processor_dual_force_bypass_mode, host_processor_dual.c 24-38. *)
Definition force_bypass (swap : bool) : M unit :=
  (if swap then set (fun s => w_nv (negb (ro s)) s) else ret tt);;
  config_bypass.

(** host_processor_dual_flash_rollback, host_processor_dual.c 78-193.  Without a PFM the second chip
    is copied over the first: an erase and a copy. *)
Definition flash_rollback (disable_bypass : bool) : M status :=
  a <- get act;
  u <- get unsup;
  d <- get dirty;
  b <- get byp;
  if is_some a && u then ret SFlashNotSupported
  else if (negb (is_some a) && negb disable_bypass) || (is_some a && (negb d || b))
  then
    if b && disable_bypass then ret SNoRollback
    else
      r <- rot_access;
      r <- (if negb (ok r) then ret r
            else match a with
                 | Some p =>
                   if negb b then
                     y <- validate_rw p;
                     if ok (fst y) then swap_flash (snd y) false true;; ret SOk
                     else ret (fst y)
                   else force_bypass true;; ret SOk
                 | None =>
                   v <- get ro;
                   andthen (call_write v) (
                   x <- get (fun s => chip s (negb v));
                   e <- call_write v;
                   if ok e then set (w_chip v x);; ret SOk else ret e)
                 end);
      host_access;; ret r
  else if is_some a then ret SRollbackDirty
  else ret SNoRollback.

(** host_processor_dual_recover_active_read_write_data, host_processor_dual.c 195-230. *)
Definition recover_rw_data : M status :=
  b <- get byp;
  a <- get act;
  match a with
  | Some p =>
    if b then ret SNoActiveRwData
    else
      r <- rot_access;
      r <- (if ok r then restore_with_pfm p else ret r);
      host_access;; ret r
  | None => ret SNoActiveRwData
  end.

(** host_processor_filtered_apply_recovery_image, host_processor_filtered.c 1230-1322: the chip is
    erased and then programmed. *)
Definition apply_recovery_image : M status :=
  b <- get byp;
  u <- get unsup;
  if negb b && u then ret SFlashNotSupported
  else if negb (has_recovery c) then ret SRecoveryUnsupported
  else
    i <- get rec;
    match i with
    | None => ret SNoRecoveryImage
    | Some i' =>
      r <- rot_access;
      r <- (if ok r then
              v <- get ro;
              andthen (call_write v) (
              andthen (call_write v) (
              set (w_chip v (applied i'));;
              b <- get byp;
              (if negb b then clear_rw;; config_flash else ret tt);;
              ret SOk))
            else ret r);
      host_access;; ret r
    end.

(** host_processor_dual_bypass_mode, host_processor_dual.c 232-246. *)
Definition bypass_mode (swap : bool) : M status :=
  force_bypass swap;; host_access;; ret SOk.

(** host_processor_dual_config_read_only_flash, host_processor_dual.c 303-397. *)
Definition config_read_only (current next_ro : option bool) (apply : option activation) : M status :=
  b <- get byp;
  v <- get ro;
  nv <- get nv_ro;
  r <- match current with
       | None => ret SOk
       | Some w =>
         if negb b then ret SConfigUnsupported
         else if negb (Bool.eqb v w) then
           set (w_ovr (Some w));;
           r <- rot_access;
           (if ok r then config_bypass else ret tt);;
           host_access;; ret r
         else ret SOk
       end;
  if negb (ok r) then ret r
  else
    match next_ro with
    | None => ret tt
    | Some w =>
      if b then
        h <- get (fun s => is_some (ovr s));
        (if negb (Bool.eqb v w) && negb h then set (w_ovr (Some v)) else ret tt);;
        set (w_nv w)
      else set (w_dirty (negb (Bool.eqb nv w)))
    end;;
    match apply with Some e => set (w_events e) | None => ret tt end;;
    ret SOk.

(** What happens around the flows: the host changes the chip the filter lets it write; the filter
    reports a write outside the read/write regions (spi_filter_irq_handler_ro_flash_dirty,
    spi_filter_irq_handler.c 12-17); the PFM manager gets other PFMs, which may or may not mark
    them as new; there is another recovery image. *)
Definition writable_chip (s : st) : bool := match f_mode s with Dual => negb (f_ro s) | Through cs => cs end.
Definition host_can_access (s : st) : bool := acc s && f_on s.

Inductive op :=
  | SoftReset | RunTimeVerification | Rollback (disable_bypass : bool) | RecoverRwData
  | ApplyRecovery | BypassMode (swap : bool)
  | ConfigReadOnly (current next_ro : option bool) (apply : option activation)
  | HostWrites (content : C) | DirtyIrq | PfmsAre (a p : option P) (news : bool) | RecoveryIs (i : option Img).

Definition step (x : op) : M status :=
  match x with
  | SoftReset => soft_reset
  | RunTimeVerification => run_time_verification
  | Rollback b => flash_rollback b
  | RecoverRwData => recover_rw_data
  | ApplyRecovery => apply_recovery_image
  | BypassMode b => bypass_mode b
  | ConfigReadOnly x y z => config_read_only x y z
  | HostWrites v =>
    set (fun s => if host_can_access s then w_chip (writable_chip s) v s else s);; ret SOk
  | DirtyIrq => set (fun s => w_fdirty true (w_dirty true s));; ret SOk
  | PfmsAre a p b => set (fun s => w_pfm_dirty (b || pfm_dirty s) (w_pfms a p s));; ret SOk
  | RecoveryIs i => set (w_rec i);; ret SOk
  end.

End HostProc.

Arguments chip {P C Img} _.
Arguments f_on {P C Img} _.
Arguments f_mode {P C Img} _.
Arguments f_ro {P C Img} _.
Arguments f_rw {P C Img} _.
Arguments f_dirty {P C Img} _.
Arguments acc {P C Img} _.
Arguments nv_ro {P C Img} _.
Arguments ovr {P C Img} _.
Arguments dirty {P C Img} _.
Arguments events {P C Img} _.
Arguments pfm_dirty {P C Img} _.
Arguments preval {P C Img} _.
Arguments byp {P C Img} _.
Arguments unsup {P C Img} _.
Arguments act {P C Img} _.
Arguments pend {P C Img} _.
Arguments rec {P C Img} _.
Arguments tick {P C Img} _.
Arguments a_err {C} _.
Arguments a_eff {C} _.
Arguments a_unsup {C} _.
Arguments a_content {C} _.
Arguments act_ok {C} _.
Arguments fuel {C} _.
Arguments ask {C} _ _.
Arguments mkA {C} _ _ _ _.
Arguments mkO {C} _ _ _.
Arguments mkSt {P C Img}.
Arguments SoftReset {P C Img}.
Arguments RunTimeVerification {P C Img}.
Arguments RecoverRwData {P C Img}.
Arguments ApplyRecovery {P C Img}.
Arguments DirtyIrq {P C Img}.
Arguments Rollback {P C Img} _.
Arguments BypassMode {P C Img} _.
Arguments HostWrites {P C Img} _.
Arguments RecoveryIs {P C Img} _.
Arguments ConfigReadOnly {P C Img} _ _ _.
Arguments PfmsAre {P C Img} _ _ _.
Arguments host_can_access {P C Img} _.
Arguments writable_chip {P C Img} _.
Arguments ro {P C Img} _.
