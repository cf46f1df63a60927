(** * Model of updates that affect the host (core/firmware/impactful_update.c)

    With impactful_update_handler.c (execute) and
    firmware_update_observer_impactful.c.

    Any number of tasks call the manager at the same time, and the expiration
    timer runs its callback in a task of its own.  Code that holds the lock is
    one step, as is each call to the timer; anything may happen between steps.
    A timer may fire late, at any time after it is due.

    Simplified: pointers are not null; there is at least one check
    (impactful_update.c:156, 188); a timer that cannot be armed or disarmed
    stays as it was; the debug log is not modelled. *)
From Coq Require Import List NArith Bool Arith.
From Verif Require Import Base.
Import ListNotations.
Local Open Scope N_scope.

(** Where a call of reset_authorization is: not made, before disarming the
    timer, before clearing the authorization. *)
Inductive phase := Idle | Disarming | Clearing.

(** impactful_update.h, struct impactful_update_state: [timer] is when it is
    due, if it is armed. *)
Record state := State { now : N; authorized : bool; timer : option N; task : nat -> phase }.
Definition set_task (f : nat -> phase) (i : nat) (p : phase) : nat -> phase := fun j => if (j =? i)%nat then p else f j.

(** One step.  [ok]: the call to the timer works. *)
Inductive event :=
| Authorize (time : N) (ok : bool)
| ResetCalled (i : nat)
| Disarmed (i : nat) (ok : bool)
| ResetDone (i : nat)
| Fired (i : nat)
| Tick.

(** None: the step cannot happen now. *)
Definition step (s : state) (e : event) : option state :=
  match e with
  (* impactful_update_authorize_update (impactful_update.c:79-108), holding the lock *)
  | Authorize time ok =>
      Some (if ok then State (now s) true (if negb (time =? 0) then Some (now s + time) else None) (task s) else s)
  (* impactful_update_reset_authorization (110-128): the call, *)
  | ResetCalled i => match task s i with Idle => Some (State (now s) (authorized s) (timer s) (set_task (task s) i Disarming)) | _ => None end
  (* line 120, without the lock *)
  | Disarmed i ok =>
      match task s i with
      | Disarming => Some (State (now s) (authorized s) (if ok then None else timer s) (set_task (task s) i Clearing))
      | _ => None
      end
  (* lines 123-127 *)
  | ResetDone i => match task s i with Clearing => Some (State (now s) false (timer s) (set_task (task s) i Idle)) | _ => None end
  (* the timer is due: impactful_update_expired_authorization (135-140) *)
  | Fired i =>
      match timer s, task s i with
      | Some t, Idle => if t <=? now s then Some (State (now s) (authorized s) None (set_task (task s) i Disarming)) else None
      | _, _ => None
      end
  | Tick => Some (State (now s + 1) (authorized s) (timer s) (task s))
  end.

Fixpoint run (s : state) (l : list event) : option state :=
  match l with [] => Some s | e :: l => match step s e with Some s => run s l | None => None end end.

(** impactful_update_init_state (impactful_update.c:184-207) *)
Definition init : state := State 0 false None (fun _ => Idle).

(** What a check says: whether the update is not impactful (0), and whether
    that can be authorized (0). *)
Record check := Check { c_not_impactful : N; c_authorization : N }.

(** impactful_update_is_update_not_impactful (12-30) *)
Fixpoint not_impactful (l : list check) : N :=
  match l with
  | [] => 0
  | c :: l => if negb (c_not_impactful c =? 0) then c_not_impactful c else not_impactful l
  end.

(** impactful_update_is_update_allowed (32-77): each check comes with the steps
    other tasks make before it.  The answer, or None if those steps cannot
    happen; and what [allowed] is so far. *)
Fixpoint is_allowed (s : state) (allowed : N) (l : list (list event * check)) : option N :=
  match l with
  | [] => Some allowed
  | (es, c) :: l =>
      match run s es with
      | None => None
      | Some s =>
          if negb (c_not_impactful c =? 0) then
            if negb (c_authorization c =? 0) then Some (c_authorization c)
            else is_allowed s (if negb (authorized s) then c_not_impactful c else allowed) l
          else is_allowed s allowed l
      end
  end.

(** firmware_update_observer_impactful_on_update_start
    (firmware_update_observer_impactful.c:11-21): other observers have had
    their say. *)
Definition on_update_start (s : state) (update_allowed : N) (l : list (list event * check)) : option N :=
  if update_allowed =? 0 then is_allowed s 0 l else Some update_allowed.

(** firmware_update.h, enum firmware_update_status: the two kinds of success. *)
Definition UPDATE_SUCCESS : N := 0.
Definition UPDATE_SUCCESS_NO_RESET : N := 34.

(** impactful_update_handler_execute (impactful_update_handler.c:85-129), after
    the update itself, which left [status] and [reset].  The status is without
    the error in its upper bits (firmware_update_handler.c:459).  [checks] are the
    answers of the manager.  The result: whether reset_authorization is called,
    the status and the reset request. *)
Definition handler_execute (run_update : bool) (status : N) (reset : bool) (checks : list check) : bool * N * bool :=
  if run_update && ((status =? UPDATE_SUCCESS) || (status =? UPDATE_SUCCESS_NO_RESET)) then
    if (status =? UPDATE_SUCCESS) && negb (not_impactful checks =? 0) then (true, UPDATE_SUCCESS_NO_RESET, false)
    else (true, status, reset)
  else (false, status, reset).

(** ** Locks

    The same calls with the locks they take: that of the manager, and that of
    the timer, which may be taken again by the task that has it
    (projects/freertos/platform.c:132-202, projects/linux/platform.c:238-350).
    The callback runs with the lock of the timer. *)
Inductive instr := TakeManager | GiveManager | TakeTimer | GiveTimer | IfArmed | Arm | Disarm | SetAuthorized | Clear | Read.
Inductive call := AuthorizeCall | ResetCall | CheckCall | Expired.

Definition reset_code : list instr := [TakeTimer; Disarm; GiveTimer; TakeManager; Clear; GiveManager].
Definition code (c : call) : list instr :=
  match c with
  (* impactful_update.c:79-108 with platform_timer_arm_one_shot *)
  | AuthorizeCall => [TakeManager; TakeTimer; Arm; GiveTimer; SetAuthorized; GiveManager]
  (* impactful_update.c:110-128 with platform_timer_disarm *)
  | ResetCall => reset_code
  (* impactful_update.c:60-70 *)
  | CheckCall => [TakeManager; Read; GiveManager]
  (* platform_timer_notification and impactful_update.c:135-140 *)
  | Expired => [TakeTimer; IfArmed] ++ reset_code ++ [GiveTimer]
  end.

(** Who has each lock (the timer's: how often), whether the timer is armed,
    and what each task has left to do. *)
Record locks := Locks { manager : option nat; timer_lock : option (nat * nat); armed : bool; left_to_do : nat -> list instr }.
Definition set_todo (f : nat -> list instr) (i : nat) (l : list instr) : nat -> list instr := fun j => if (j =? i)%nat then l else f j.

(** A task makes its next step; None if it has to wait, or has nothing to do. *)
Definition advance (s : locks) (i : nat) : option locks :=
  match left_to_do s i with
  | [] => None
  | c :: l =>
      let go m t a l := Some (Locks m t a (set_todo (left_to_do s) i l)) in
      match c with
      | TakeManager => match manager s with None => go (Some i) (timer_lock s) (armed s) l | Some _ => None end
      | GiveManager => go None (timer_lock s) (armed s) l
      | TakeTimer =>
          match timer_lock s with
          | None => go (manager s) (Some (i, 1%nat)) (armed s) l
          | Some (j, n) => if (j =? i)%nat then go (manager s) (Some (i, S n)) (armed s) l else None
          end
      | GiveTimer => go (manager s) (match timer_lock s with Some (j, S (S n)) => Some (j, S n) | _ => None end) (armed s) l
      | IfArmed => go (manager s) (timer_lock s) (armed s) (if armed s then l else [GiveTimer])
      | Arm => go (manager s) (timer_lock s) true l
      | Disarm => go (manager s) (timer_lock s) false l
      | SetAuthorized | Clear | Read => go (manager s) (timer_lock s) (armed s) l
      end
  end.

(** A task that is done makes a call; a timer that is armed expires. *)
Definition begin_call (s : locks) (i : nat) (c : call) : option locks :=
  match left_to_do s i, c, armed s with
  | [], Expired, false => None
  | [], c, _ => Some (Locks (manager s) (timer_lock s) (armed s) (set_todo (left_to_do s) i (code c)))
  | _, _, _ => None
  end.

Inductive move := Begin (i : nat) (c : call) | Advance (i : nat).
Fixpoint moves (s : locks) (l : list move) : option locks :=
  match l with
  | [] => Some s
  | m :: l =>
      match (match m with Begin i c => begin_call s i c | Advance i => advance s i end) with
      | Some s => moves s l
      | None => None
      end
  end.
Definition no_locks : locks := Locks None None false (fun _ => []).
