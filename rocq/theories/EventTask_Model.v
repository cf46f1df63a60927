(** * Model of the event task on FreeRTOS

    core/system/event_task.c (event_task_prepare_handlers,
    event_task_find_handler, event_task_submit_event) and
    projects/freertos/event_task_freertos.c (lock, unlock,
    get_event_context, notify, process_notification, allocate, start).

    The model is a small-step machine: any number of client threads and one
    event task, interleaved in any order, one access to shared memory per
    step.  The numbered comments give the line each step models.

    Modelled: the mutex, the notifying flag, the running index, the shared
    event context with its buffer copied one byte per step, the counting task
    notification, the status cells that submitters and handlers write, and
    sections of client code that run between lock and unlock.

    Simplified: the mutex is never taken twice by one thread (the code never
    does) and never fails; a handler is a number standing for its address; a
    handler's execution is any sequence of looks at the event context, locked
    writes to status cells and a final verdict on whether to reset, and it
    does not itself change the context; [vTaskDelete] (release) and the
    five-second sleep are not modelled; the order of memory accesses is the
    program order (one core). *)
From Coq Require Import List NArith ZArith Lia Bool Arith.
From Verif Require Import Base.
Import ListNotations.
Local Open Scope nat_scope.

(** A cell of memory shared under the task lock, e.g. an operation status
    (core/cmd_interface/cmd_background_handler.h:33-44). *)
Definition mem : Type := nat -> Z.
Definition put (m : mem) (c : nat) (v : Z) : mem := fun x => if x =? c then v else m x.

(** What a caller gives event_task_submit_event (event_task.c:72-74): the
    handler, the action, the data (None for null), its length, and where to
    write which starting status (None for a null status_out). *)
Record request : Type := mkReq {
  r_handler : nat;
  r_action : N;
  r_data : option (list N);
  r_len : nat;
  r_status : option (nat * Z)
}.

(** The calls a client can make.  [Submit] is event_task_submit_event;
    [Cancel] is get_event_context followed by notify with a null handler
    (event_task.h:87-91); [Locked f] is lock, any access to the shared cells,
    unlock (e.g. cmd_background_handler.c:133-156). *)
Inductive op : Type :=
  | Submit (r : request)
  | Cancel
  | Locked (f : mem -> mem * Z).

(** The codes of event_task.h:146-159 that the modelled calls return, and the
    value computed by a locked section. *)
Inductive result : Type :=
  | Success
  | TaskBusy
  | NoTask
  | UnknownHandler
  | NotReady
  | TooMuchData
  | Value (v : Z).

(** Where a client is.  A name gives the next step of the call. *)
Inductive cpc : Type :=
  | CLength                    (* event_task.c:83 *)
  | CTask                      (* event_task_freertos.c:42 *)
  | CLock                      (* event_task_freertos.c:43 *)
  | CTest                      (* event_task_freertos.c:44-46 *)
  | CBusy                      (* event_task_freertos.c:50 *)
  | CStatus                    (* event_task.c:90-92 *)
  | CAction                    (* event_task.c:94 *)
  | CLen                       (* event_task.c:95-101 *)
  | CCopy (i : nat)            (* event_task.c:97 *)
  | NTask                      (* event_task_freertos.c:71 *)
  | NRunning                   (* event_task_freertos.c:72 *)
  | NNotifying                 (* event_task_freertos.c:73 *)
  | NFind                      (* event_task_freertos.c:75-80 *)
  | NClear (st : result)       (* event_task_freertos.c:82 *)
  | NUnlock (st : result)      (* event_task_freertos.c:83 *)
  | NCheck (st : result)       (* event_task_freertos.c:84 *)
  | NGive (st : result)        (* event_task_freertos.c:86 *)
  | SLock                      (* lock *)
  | SBody                      (* the section *)
  | SUnlock (v : Z)            (* unlock *)
  | CRet (st : result).

(** A client is idle or inside its call number [n]. *)
Inductive client : Type :=
  | Idle
  | In (n : nat) (o : op) (pc : cpc).

(** Where the event task is (event_task_freertos.c:186-225). *)
Inductive wpc : Type :=
  | WStart                     (* 191 *)
  | WPrep (i : nat)            (* 193 *)
  | WInitLock                  (* 197 *)
  | WInitClear                 (* 198 *)
  | WInitUnlock                (* 199 *)
  | WTake                      (* 203 *)
  | WLow                       (* 206, first condition *)
  | WHigh                      (* 206, second condition *)
  | WFetch                     (* 208 *)
  | WExec (h : nat)            (* inside the handler *)
  | WSetLock (h c : nat) (v : Z)   (* cmd_background_handler.c:31 *)
  | WSetWrite (h c : nat) (v : Z)  (* cmd_background_handler.c:32 *)
  | WSetUnlock (h : nat)           (* cmd_background_handler.c:33 *)
  | WReset (reset : bool)      (* 212-218 *)
  | WLock                      (* 221 *)
  | WClear                     (* 222 *)
  | WUnlock                    (* 223 *)
  | WBad.                      (* handlers[] read outside the array *)

Inductive owner : Type := ByClient (t : nat) | ByTask.

(** What happens, seen from outside.  [Commit] is the moment a submission
    takes effect, [Refuse] and [Missing] the moments it is refused because the
    task is busy or does not exist, [Dropped] the moment an unknown or null
    handler is given up, [Access] the moment a locked section runs. *)
Inductive event : Type :=
  | Called (n t : nat) (o : op)
  | Missing (n : nat)
  | Refuse (n : nat)
  | Commit (n : nat) (r : request)
  | Dropped (n : nat)
  | Access (n : nat) (f : mem -> mem * Z) (v : Z)
  | Returned (n : nat) (st : result)
  | Created
  | Prepared (h : nat)
  | Opened
  | Started (h : nat)
  | Saw (h : nat) (action : N) (data : list N)
  | Wrote (c : nat) (v : Z)
  | SystemReset
  | Finished.

Record state : Type := mkState {
  s_task : bool;               (* state->task is not null *)
  s_lock : option owner;
  s_notifying : bool;
  s_running : Z;
  s_action : N;                (* context.action *)
  s_len : nat;                 (* context.buffer_length *)
  s_buf : list N;              (* context.event_buffer *)
  s_mem : mem;
  s_count : nat;               (* the FreeRTOS notification value of the task *)
  s_worker : wpc;
  s_clients : nat -> client;
  s_next : nat;                (* number of the next call; not in the code *)
  s_trace : list event         (* not in the code *)
}.

(** The list of handlers (event_task_freertos.h:34-35) and the size of the
    event buffer (event_task.h:19). *)
Record config : Type := mkConfig { c_handlers : list nat; c_capacity : nat }.

(** event_task_freertos_init_state (event_task_freertos.c:150-163): everything
    zero, including [running]. *)
Definition init (c : config) (m : mem) : state :=
  mkState false None false 0 0 0 (repeat 0%N (c_capacity c)) m 0 WStart
    (fun _ => Idle) 0 [].

Definition set_client (cl : nat -> client) (t : nat) (x : client) : nat -> client :=
  fun u => if u =? t then x else cl u.

(** event_task_find_handler (event_task.c:39-57), for a handler that is not
    null. *)
Fixpoint find_from (h : nat) (l : list nat) (i : nat) : option nat :=
  match l with
  | [] => None
  | x :: l' => if x =? h then Some i else find_from h l' (S i)
  end.
Definition find_handler (h : nat) (l : list nat) : option nat := find_from h l 0.

(** Field updates. *)
Definition at_pc (s : state) (t n : nat) (o : op) (pc : cpc) : state :=
  mkState (s_task s) (s_lock s) (s_notifying s) (s_running s) (s_action s) (s_len s) (s_buf s)
    (s_mem s) (s_count s) (s_worker s) (set_client (s_clients s) t (In n o pc)) (s_next s)
    (s_trace s).
Definition at_idle (s : state) (t : nat) : state :=
  mkState (s_task s) (s_lock s) (s_notifying s) (s_running s) (s_action s) (s_len s) (s_buf s)
    (s_mem s) (s_count s) (s_worker s) (set_client (s_clients s) t Idle) (s_next s) (s_trace s).
Definition at_worker (s : state) (w : wpc) : state :=
  mkState (s_task s) (s_lock s) (s_notifying s) (s_running s) (s_action s) (s_len s) (s_buf s)
    (s_mem s) (s_count s) w (s_clients s) (s_next s) (s_trace s).
Definition emit (s : state) (e : event) : state :=
  mkState (s_task s) (s_lock s) (s_notifying s) (s_running s) (s_action s) (s_len s) (s_buf s)
    (s_mem s) (s_count s) (s_worker s) (s_clients s) (s_next s) (s_trace s ++ [e]).
Definition with_lock (s : state) (l : option owner) : state :=
  mkState (s_task s) l (s_notifying s) (s_running s) (s_action s) (s_len s) (s_buf s)
    (s_mem s) (s_count s) (s_worker s) (s_clients s) (s_next s) (s_trace s).
Definition with_notifying (s : state) (b : bool) : state :=
  mkState (s_task s) (s_lock s) b (s_running s) (s_action s) (s_len s) (s_buf s)
    (s_mem s) (s_count s) (s_worker s) (s_clients s) (s_next s) (s_trace s).
Definition with_running (s : state) (r : Z) : state :=
  mkState (s_task s) (s_lock s) (s_notifying s) r (s_action s) (s_len s) (s_buf s)
    (s_mem s) (s_count s) (s_worker s) (s_clients s) (s_next s) (s_trace s).
Definition with_action (s : state) (a : N) : state :=
  mkState (s_task s) (s_lock s) (s_notifying s) (s_running s) a (s_len s) (s_buf s)
    (s_mem s) (s_count s) (s_worker s) (s_clients s) (s_next s) (s_trace s).
Definition with_len (s : state) (n : nat) : state :=
  mkState (s_task s) (s_lock s) (s_notifying s) (s_running s) (s_action s) n (s_buf s)
    (s_mem s) (s_count s) (s_worker s) (s_clients s) (s_next s) (s_trace s).
Definition with_buf (s : state) (b : list N) : state :=
  mkState (s_task s) (s_lock s) (s_notifying s) (s_running s) (s_action s) (s_len s) b
    (s_mem s) (s_count s) (s_worker s) (s_clients s) (s_next s) (s_trace s).
Definition with_mem (s : state) (m : mem) : state :=
  mkState (s_task s) (s_lock s) (s_notifying s) (s_running s) (s_action s) (s_len s) (s_buf s)
    m (s_count s) (s_worker s) (s_clients s) (s_next s) (s_trace s).
Definition with_count (s : state) (n : nat) : state :=
  mkState (s_task s) (s_lock s) (s_notifying s) (s_running s) (s_action s) (s_len s) (s_buf s)
    (s_mem s) n (s_worker s) (s_clients s) (s_next s) (s_trace s).

(** A client makes a call.  Not a line of the code. *)
Definition call (s : state) (t : nat) (o : op) : option state :=
  match s_clients s t with
  | In _ _ _ => None
  | Idle =>
      let pc := match o with Submit _ => CLength | Cancel => CTask | Locked _ => SLock end in
      let n := s_next s in
      let s1 := emit s (Called n t o) in
      Some (mkState (s_task s1) (s_lock s1) (s_notifying s1) (s_running s1) (s_action s1)
              (s_len s1) (s_buf s1) (s_mem s1) (s_count s1) (s_worker s1)
              (set_client (s_clients s1) t (In n o pc)) (S n) (s_trace s1))
  end.

(** One step of a client inside a call.  [None] means it has to wait. *)
Definition client_step (c : config) (s : state) (t : nat) : option state :=
  match s_clients s t with
  | Idle => None
  | In n o pc =>
      let go := fun s' pc' => Some (at_pc s' t n o pc') in
      match pc with
      | CLength =>
          match o with
          | Submit r =>
              if c_capacity c <? r_len r then go s (CRet TooMuchData) else go s CTask
          | _ => None
          end
      | CTask => if s_task s then go s CLock else go (emit s (Missing n)) (CRet NoTask)
      | CLock =>
          match s_lock s with
          | Some _ => None
          | None => go (with_lock s (Some (ByClient t))) CTest
          end
      | CTest =>
          if negb (s_notifying s) && (s_running s <? 0)%Z then
            go (with_notifying s true) (match o with Submit _ => CStatus | _ => NTask end)
          else go (emit s (Refuse n)) CBusy
      | CBusy => go (with_lock s None) (CRet TaskBusy)
      | CStatus =>
          match o with
          | Submit r =>
              match r_status r with
              | Some (cell, v) => go (with_mem s (put (s_mem s) cell v)) CAction
              | None => go s CAction
              end
          | _ => None
          end
      | CAction =>
          match o with Submit r => go (with_action s (r_action r)) CLen | _ => None end
      | CLen =>
          match o with
          | Submit r =>
              match r_data r with
              | Some _ => go (with_len s (r_len r)) (CCopy 0)
              | None => go (with_len s 0) NTask
              end
          | _ => None
          end
      | CCopy i =>
          match o with
          | Submit r =>
              match r_data r with
              | Some d =>
                  if i <? r_len r then go (with_buf s (upd (s_buf s) i (nth i d 0%N))) (CCopy (S i))
                  else go s NTask
              | None => None
              end
          | _ => None
          end
      | NTask => if s_task s then go s NRunning else go s (CRet NoTask)
      | NRunning => if (s_running s <? 0)%Z then go s NNotifying else go s (CRet TaskBusy)
      | NNotifying => if s_notifying s then go s NFind else go s (CRet NotReady)
      | NFind =>
          match o with
          | Submit r =>
              match find_handler (r_handler r) (c_handlers c) with
              | Some i => go (emit (with_running s (Z.of_nat i)) (Commit n r)) (NClear Success)
              | None => go (emit s (Dropped n)) (NClear UnknownHandler)
              end
          | _ => go (emit s (Dropped n)) (NClear UnknownHandler)
          end
      | NClear st => go (with_notifying s false) (NUnlock st)
      | NUnlock st => go (with_lock s None) (NCheck st)
      | NCheck st => if (0 <=? s_running s)%Z then go s (NGive st) else go s (CRet st)
      | NGive st => go (with_count s (S (s_count s))) (CRet st)
      | SLock =>
          match s_lock s with
          | Some _ => None
          | None => go (with_lock s (Some (ByClient t))) SBody
          end
      | SBody =>
          match o with
          | Locked f =>
              let '(m, v) := f (s_mem s) in
              go (emit (with_mem s m) (Access n f v)) (SUnlock v)
          | _ => None
          end
      | SUnlock v => go (with_lock s None) (CRet (Value v))
      | CRet st => Some (at_idle (emit s (Returned n st)) t)
      end
  end.

(** What the handler does next while it executes: look at the event context,
    write a status cell under the lock, or return with its verdict on
    resetting the system. *)
Inductive move : Type :=
  | Look
  | SetCell (c : nat) (v : Z)
  | Done (reset : bool).

(** One step of the event task.  The move is used inside a handler only.
    [ulTaskNotifyTake (pdTRUE, portMAX_DELAY)] waits for the count to be
    positive and clears it. *)
Definition task_step (c : config) (s : state) (mv : move) : option state :=
  let go := fun s' w => Some (at_worker s' w) in
  if s_task s then
    match s_worker s with
    | WStart =>
        if 0 <? s_count s then go (with_count s 0) (WPrep 0) else None
    | WPrep i =>
        match nth_error (c_handlers c) i with
        | Some h => go (emit s (Prepared h)) (WPrep (S i))
        | None => go s WInitLock
        end
    | WInitLock =>
        match s_lock s with
        | Some _ => None
        | None => go (with_lock s (Some ByTask)) WInitClear
        end
    | WInitClear => go (emit (with_running s (-1)) Opened) WInitUnlock
    | WInitUnlock => go (with_lock s None) WTake
    | WTake => if 0 <? s_count s then go (with_count s 0) WLow else None
    | WLow => if (0 <=? s_running s)%Z then go s WHigh else go s (WReset false)
    | WHigh =>
        if (s_running s <? Z.of_nat (length (c_handlers c)))%Z then go s WFetch
        else go s (WReset false)
    | WFetch =>
        match nth_error (c_handlers c) (Z.to_nat (s_running s)) with
        | Some h => if (s_running s <? 0)%Z then go s WBad else go (emit s (Started h)) (WExec h)
        | None => go s WBad
        end
    | WExec h =>
        match mv with
        | Look => go (emit s (Saw h (s_action s) (firstn (s_len s) (s_buf s)))) (WExec h)
        | SetCell cell v => go s (WSetLock h cell v)
        | Done reset => go s (WReset reset)
        end
    | WSetLock h cell v =>
        match s_lock s with
        | Some _ => None
        | None => go (with_lock s (Some ByTask)) (WSetWrite h cell v)
        end
    | WSetWrite h cell v =>
        go (emit (with_mem s (put (s_mem s) cell v)) (Wrote cell v)) (WSetUnlock h)
    | WSetUnlock h => go (with_lock s None) (WExec h)
    | WReset reset => if reset then go (emit s SystemReset) WLock else go s WLock
    | WLock =>
        match s_lock s with
        | Some _ => None
        | None => go (with_lock s (Some ByTask)) WClear
        end
    | WClear => go (emit (with_running s (-1)) Finished) WUnlock
    | WUnlock => go (with_lock s None) WTake
    | WBad => None
    end
  else None.

(** One step of the system.  [Create] is event_task_freertos_allocate
    (event_task_freertos.c:240-257), [Start] is event_task_freertos_start
    (event_task_freertos.c:300-305). *)
Inductive choice : Type :=
  | Create
  | Start
  | Call (t : nat) (o : op)
  | Client (t : nat)
  | Task (mv : move).

Definition step (c : config) (s : state) (ch : choice) : option state :=
  match ch with
  | Create =>
      if s_task s then None
      else
        let s1 := emit s Created in
        Some (mkState true (s_lock s1) (s_notifying s1) (s_running s1) (s_action s1) (s_len s1)
                (s_buf s1) (s_mem s1) (s_count s1) (s_worker s1) (s_clients s1) (s_next s1)
                (s_trace s1))
  | Start => if s_task s then Some (with_count s (S (s_count s))) else None
  | Call t o => call s t o
  | Client t => client_step c s t
  | Task mv => task_step c s mv
  end.

(** A schedule is a list of choices. *)
Fixpoint run (c : config) (s : state) (sch : list choice) : option state :=
  match sch with
  | [] => Some s
  | ch :: rest =>
      match step c s ch with
      | Some s' => run c s' rest
      | None => None
      end
  end.
