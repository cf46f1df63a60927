(** * Recovery of a BMC that does not boot (core/host_fw/bmc_recovery.c)

    Modelled: the state machine over host resets, exits from reset and chip
    select events, the watchdog counter and the flag that stops recovery, the
    choice of actions and the status that is returned.  The results of the
    actions, the interrupt control and the timer are inputs of each event, so
    they may be anything at any time.  Not modelled: null arguments, the debug
    log, the 100 ms sleep, and what the actions of the host processor do (that
    is the subject of HostProc_Model and RecoveryImage_Model).  The watchdog
    counter is an unbounded integer; C75_counter bounds it. *)
From Coq Require Import List ZArith Bool.
Import ListNotations.
Local Open Scope Z_scope.

(** Status codes that are told apart (bmc_recovery.c:126-146, host_processor.h:22-24);
    [Other] is any other error. *)
Inductive code :=
  | Ok | NoActiveRwData | RwRecoveryUnsupported | BadSignature | BadImageHash | UnexpectedValue
  | UnsupportedVersion | NoRollback | RollbackDirty | RecoveryUnsupported | NoRecoveryImage
  | Other (e : N).

Definition is_ok (c : code) : bool := match c with Ok => true | _ => false end.

(** IS_VALIDATION_FAILURE (host_processor.h:22-24). *)
Definition is_validation_failure (c : code) : bool :=
  match c with BadSignature | BadImageHash | UnexpectedValue | UnsupportedVersion => true | _ => false end.

(** States of the recovery manager (bmc_recovery.h:80-85). *)
Inductive state := RUNNING | IN_RESET | EXIT_RESET | ROLLBACK_DONE.

(** struct bmc_recovery (bmc_recovery.h:62-69): the fields that change.
    The timeout is part of the environment (see [Cs1]). *)
Record recovery := mkRec { r_state : state; r_num_wdt : Z; r_skip : bool }.

(** Calls the state machine makes, in order: enabling chip select interrupts,
    a reset pulse of the host (hold_processor_in_reset true, false), and the
    three recovery operations of the host processor. *)
Inductive action := Irq (on : bool) | Pulse | RecoverRw | Rollback | ApplyImage.

(** What the environment answers during a chip select 1 event: whether the
    timeout has expired, the results of the operations, and the status of
    starting the timer. *)
Record answers := mkAns { a_expired : bool; a_rw : code; a_rollback : code; a_image : code; a_timer : code }.

(** Events (bmc_recovery.h:33-60). *)
Inductive event := HostReset | OutOfReset | Cs0 | Cs1 (a : answers).

Section MODEL.
Variable min_wdt : Z.

(** bmc_recovery_enter_running_state (bmc_recovery.c:16-26).  A failure of the
    interrupt control is only logged. *)
Definition enter_running (r : recovery) : recovery * list action :=
  (mkRec RUNNING (r_num_wdt r) (r_skip r), [Irq false]).

(** bmc_recovery_enter_in_reset_state (bmc_recovery.c:33-43). *)
Definition enter_in_reset (r : recovery) : recovery * list action :=
  (mkRec IN_RESET (r_num_wdt r) (r_skip r), [Irq true]).

(** bmc_recovery_on_host_reset (bmc_recovery.c:45-57). *)
Definition on_host_reset (r : recovery) : recovery * list action :=
  match r_state r with
  | RUNNING | EXIT_RESET => enter_in_reset r
  | _ => (r, [])
  end.

(** bmc_recovery_on_host_out_of_reset (bmc_recovery.c:59-71). *)
Definition on_host_out_of_reset (r : recovery) : recovery * list action :=
  match r_state r with
  | IN_RESET | ROLLBACK_DONE => (mkRec EXIT_RESET (r_num_wdt r) (r_skip r), [])
  | _ => (r, [])
  end.

(** bmc_recovery_on_host_cs0 (bmc_recovery.c:73-89). *)
Definition on_host_cs0 (r : recovery) : recovery * list action :=
  match r_state r with
  | RUNNING | EXIT_RESET => enter_running r
  | ROLLBACK_DONE => (mkRec IN_RESET (r_num_wdt r) (r_skip r), [])
  | IN_RESET => (r, [])
  end.

(** The recovery operations (bmc_recovery.c:124-149): the counter, the flag,
    the status and the calls made. *)
Definition recover (num : Z) (skip : bool) (a : answers) : Z * bool * code * list action :=
  let '(num, status, acts) :=
    if num =? min_wdt then
      (match a_rw a with NoActiveRwData | RwRecoveryUnsupported => num + 1 | _ => num end,
       a_rw a, [RecoverRw])
    else (num, Ok, []) in
  let '(num, status, acts) :=
    if skip || (num =? min_wdt + 1) then
      (if is_validation_failure (a_rollback a) ||
          match a_rollback a with NoRollback | RollbackDirty => true | _ => false end
       then num + 1 else num,
       a_rollback a, acts ++ [Rollback])
    else (num, status, acts) in
  if negb skip && (min_wdt + 2 <=? num) then
    (num, match a_image a with RecoveryUnsupported | NoRecoveryImage => true | _ => skip end,
     a_image a, acts ++ [ApplyImage])
  else (num, skip, status, acts).

(** The answer to a failure (bmc_recovery.c:117-157). *)
Definition respond (num : Z) (skip : bool) (a : answers) : Z * bool * code * list action :=
  if num <? min_wdt then (num, skip, Ok, [Pulse])
  else
    let '(num, skip, status, acts) := recover num skip a in
    (num, skip, status, if is_ok status then acts else acts ++ [Pulse]).

(** bmc_recovery_on_host_cs1 (bmc_recovery.c:91-166). *)
Definition on_host_cs1 (r : recovery) (a : answers) : recovery * list action * code :=
  match r_state r with
  | RUNNING => (enter_running r, Ok)
  | IN_RESET | EXIT_RESET =>
      let num := if a_expired a then 0 else r_num_wdt r in
      let skip := if a_expired a then false else r_skip r in
      let '(num, skip, status, acts) := respond num skip a in
      (mkRec ROLLBACK_DONE (num + 1) skip, acts, if is_ok status then a_timer a else status)
  | ROLLBACK_DONE => (r, [], Ok)
  end.

Definition step (r : recovery) (e : event) : recovery * (list action * code) :=
  match e with
  | HostReset => let '(r, l) := on_host_reset r in (r, (l, Ok))
  | OutOfReset => let '(r, l) := on_host_out_of_reset r in (r, (l, Ok))
  | Cs0 => let '(r, l) := on_host_cs0 r in (r, (l, Ok))
  | Cs1 a => let '(r, l, c) := on_host_cs1 r a in (r, (l, c))
  end.

(** bmc_recovery_init and bmc_recovery_set_initial_state (bmc_recovery.c:179-213, 237-248).
    The timeout is started with 0; with the counter 0 and the flag unset its
    expiry makes no difference. *)
Definition init (in_reset : bool) : recovery := mkRec (if in_reset then IN_RESET else RUNNING) 0 false.

(** A history of events: the outcome of each, and the final state. *)
Fixpoint run (r : recovery) (h : list event) : recovery * list (list action * code) :=
  match h with
  | [] => (r, [])
  | e :: h =>
      let '(r, o) := step r e in
      let '(r, os) := run r h in (r, o :: os)
  end.
End MODEL.
