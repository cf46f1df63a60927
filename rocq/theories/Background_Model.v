(** * Model of background commands

    core/cmd_interface/cmd_background_handler.c: unsealing, authorized
    operations, certificate authentication, debug log and reset requests, which
    are submitted to an event task, executed there, and asked after by later
    commands.  core/system/event_task.c:74-108 (event_task_submit_event).

    Modelled: the state of the handler (three status words and the key), the
    event context, and the phases of the task.  The steps are the atomic actions
    of the event task, which is what theorem C71_atomic proves of it: a
    submission, a query under the lock, and of the task itself taking an event,
    running it and finishing it.  Between those the running operation may write
    anything to the key at any time, since it gets the buffer of the handler.
    Events of other handlers of the same task use the same context.

    External: what the operations themselves return (unsealing, authorized
    operations, certificate verification, key generation, clearing the log), and
    the status identifiers of an authorized operation.  Pointers to operations
    are their eight bytes.

    Simplified: the debug log entries are left out.  Error codes are unsigned;
    the shift of CMD_BACKGROUND_STATUS is that of an unsigned number. *)
From Coq Require Import List NArith Lia Bool Arith.
From Verif Require Import Base Unseal_Model.
Import ListNotations.
Local Open Scope N_scope.

(** cmd_background.h:144-167, event_task.h:147-157. *)
Definition INVALID_ARGUMENT : N := 0x7f003000.
Definition BUF_TOO_SMALL : N := 0x7f003006.
Definition INPUT_TOO_BIG : N := 0x7f003007.
Definition UNSUPPORTED_REQUEST : N := 0x7f003008.
Definition NO_TASK : N := 0x7f003009.
Definition TASK_BUSY : N := 0x7f00300a.
Definition UNSUPPORTED_OP : N := 0x7f00300b.
Definition EVENT_NO_TASK : N := 0x7f006606.
Definition EVENT_BUSY : N := 0x7f006607.
Definition EVENT_UNKNOWN_HANDLER : N := 0x7f006608.
Definition EVENT_TOO_MUCH_DATA : N := 0x7f00660a.

(** CMD_BACKGROUND_STATUS (cmd_background.h:19). *)
Definition STATUS (kind error : N) : N := N.lor (N.shiftl (N.land error 0xffffff) 8) kind.

(** attestation_cmd_interface.h:15-22, config_reset.h:22-40,
    cmd_background.h:25-27. *)
Definition ATT_SUCCESS : N := 0.
Definition ATT_RUNNING : N := 1.
Definition ATT_FAILURE : N := 2.
Definition ATT_NONE_STARTED : N := 4.
Definition ATT_TASK_NOT_RUNNING : N := 5.
Definition ATT_INTERNAL_ERROR : N := 7.
Definition CONF_STARTING : N := 1.
Definition CONF_NONE_STARTED : N := 7.
Definition CONF_TASK_NOT_RUNNING : N := 8.
Definition CONF_INTERNAL_ERROR : N := 9.
Definition CERT_VALID : N := 0.
Definition CERT_INVALID : N := 1.
Definition CERT_VALIDATING : N := 2.

(** cmd_background_handler.h:19-27. *)
Definition RUN_UNSEAL : N := 1.
Definition DEBUG_LOG_CLEAR : N := 2.
Definition DEBUG_LOG_FILL : N := 3.
Definition AUTH_RIOT : N := 4.
Definition AUX_KEY_GEN : N := 5.
Definition REBOOT_DEVICE : N := 6.
Definition AUTHORIZED_OP : N := 7.

Definition KEY_LENGTH : nat := 32.
Definition POINTER : nat := 8.

(** The operations a task executes, with what they are passed. *)
Inductive call : Type :=
| CUnseal (args : option arguments)
| COperation (pointer : list N) (data : list N)
| CVerifyCerts
| CGenerateAux (pointer : list N)
| CClearLog
| CFillLog
| CReboot
| CUnknown (action : N).

(** The phases of the task: not started, waiting, an event of this handler
    submitted or being executed, busy with another handler. *)
Inductive phase : Type := Off | Ready | Pending | Running (c : call) | Elsewhere.

(** struct cmd_background_handler_state (cmd_background_handler.h:33-43) and
    struct event_task_context. *)
Record state : Type := mkState {
  cert : N;
  att : N;
  conf : N;
  key : list N;
  task : phase;
  action : N;
  event_buffer : list N;
  buffer_length : nat
}.

(** What happens. *)
Inductive input : Type :=
(* commands *)
| StartUnseal (request : list N)
| UnsealResult (room : nat)
| Authorized (pointer : list N) (data : list N)
| OperationStatus
| Authenticate
| ChainState
| Reboot
| ClearLog
| FillLog
| GenerateAux (pointer : list N)
(* the task *)
| StartTask
| Take
| Scribble (bytes : list N)
| Return (status : N) (unsealed : list N) (wants_reset : bool)
(* other handlers of the task *)
| Other (act : N) (buf : list N) (len : nat)
| OtherDone.

Inductive output : Type :=
| Code (c : N)
| Result (c : N) (status : N) (k : option (list N))
| Value (v : N)
| Calls (c : call)
| Finished (c : call) (reset : bool)
| OtherFinished
| Quiet.

Section MODEL.
(** EVENT_TASK_CONTEXT_BUFFER_LENGTH. *)
Variable BUFFER : nat.
(** get_status_identifiers of an authorized operation: start and error. *)
Variable idents : list N -> N * N.
(** Whether unsealing is supported (handler->attestation and hash), and whether
    the task knows the handler. *)
Variables (supported registered : bool).

Definition set_cert (s : state) (v : N) : state :=
  mkState v (att s) (conf s) (key s) (task s) (action s) (event_buffer s) (buffer_length s).
Definition set_att (s : state) (v : N) : state :=
  mkState (cert s) v (conf s) (key s) (task s) (action s) (event_buffer s) (buffer_length s).
Definition set_conf (s : state) (v : N) : state :=
  mkState (cert s) (att s) v (key s) (task s) (action s) (event_buffer s) (buffer_length s).
Definition set_key (s : state) (k : list N) : state :=
  mkState (cert s) (att s) (conf s) k (task s) (action s) (event_buffer s) (buffer_length s).
Definition set_task (s : state) (p : phase) : state :=
  mkState (cert s) (att s) (conf s) (key s) p (action s) (event_buffer s) (buffer_length s).
Definition set_event (s : state) (a : N) (b : list N) (n : nat) : state :=
  mkState (cert s) (att s) (conf s) (key s) (task s) a b n.

(** The optional pointer to a status word. *)
Inductive cell : Type := NoCell | CertCell | AttCell | ConfCell.
Definition set_cell (s : state) (c : cell) (v : N) : state :=
  match c with
  | NoCell => s
  | CertCell => set_cert s v
  | AttCell => set_att s v
  | ConfCell => set_conf s v
  end.

(** get_event_context of the task (event_task_freertos.c; see EventTask_Model):
    the code. *)
Definition get_event_context (s : state) : N :=
  match task s with
  | Off => EVENT_NO_TASK
  | Ready => 0
  | _ => EVENT_BUSY
  end.

(** notify: the event is taken, or the handler is unknown and the context is
    given back. *)
Definition notify (s : state) : state * N :=
  if registered then (set_task s Pending, 0) else (s, EVENT_UNKNOWN_HANDLER).

(** event_task_submit_event (event_task.c:74-108).  [data] is None for a null
    pointer. *)
Definition submit (s : state) (act : N) (data : option (list N)) (starting : N) (out : cell)
  : state * N :=
  if Nat.ltb BUFFER (length (match data with Some d => d | None => [] end)) then
    (s, EVENT_TOO_MUCH_DATA)
  else
    let code := get_event_context s in
    if code =? 0 then
      let s := set_cell s out starting in
      let s :=
        match data with
        | Some d => set_event s act (splice (event_buffer s) 0 d) (length d)
        | None => set_event s act (event_buffer s) 0
        end in
      notify s
    else (s, code).

(** cmd_background_handler_submit_event_result
    (cmd_background_handler.c:47-73). *)
Definition submit_event_result (s : state) (code : N) (no_task_status error_status : N)
  (out : cell) : state * N :=
  if code =? 0 then (s, 0)
  else if code =? EVENT_BUSY then (s, TASK_BUSY)
  else if code =? EVENT_TOO_MUCH_DATA then (s, INPUT_TOO_BIG)
  else if code =? EVENT_NO_TASK then (set_cell s out (STATUS no_task_status NO_TASK), NO_TASK)
  else (set_cell s out (STATUS error_status code), code).

(** cmd_background_handler_submit_event (cmd_background_handler.c:89-99). *)
Definition submit_event (s : state) (act : N) (data : option (list N))
  (starting no_task_status error_status : N) (out : cell) : state * N :=
  let '(s, code) := submit s act data starting out in
  submit_event_result s code no_task_status error_status out.

(** cmd_background_handler_unseal_start (cmd_background_handler.c:102-119). *)
Definition unseal_start (s : state) (request : list N) : state * N :=
  if Nat.eqb (length request) 0 then (s, INVALID_ARGUMENT)
  else if negb supported then (s, UNSUPPORTED_REQUEST)
  else submit_event s RUN_UNSEAL (Some request) ATT_RUNNING ATT_TASK_NOT_RUNNING
         ATT_INTERNAL_ERROR AttCell.

(** cmd_background_handler_unseal_result (cmd_background_handler.c:121-157):
    the code, the status and the key, None if none is written. *)
Definition unseal_result (s : state) (room : nat) : state * output :=
  if negb supported then (s, Result UNSUPPORTED_REQUEST 0 None)
  else if att s =? ATT_SUCCESS then
    if Nat.ltb room KEY_LENGTH then (s, Result BUF_TOO_SMALL (att s) None)
    else (set_att s ATT_NONE_STARTED, Result 0 (att s) (Some (key s)))
  else (s, Result 0 (att s) None).

(** cmd_background_handler_execute_authorized_operation
    (cmd_background_handler.c:161-206).  [data] is empty for a null pointer,
    which is treated alike. *)
Definition execute_authorized_operation (s : state) (pointer data : list N) : state * N :=
  if Nat.ltb BUFFER (POINTER + length data) then (s, INPUT_TOO_BIG)
  else
    let code := get_event_context s in
    let '(s, code) :=
      if code =? 0 then
        let s := set_conf s CONF_STARTING in
        let b := splice (event_buffer s) 0 pointer in
        notify (set_event s AUTHORIZED_OP (splice b POINTER data) (POINTER + length data)%nat)
      else (s, code) in
    submit_event_result s code CONF_TASK_NOT_RUNNING CONF_INTERNAL_ERROR ConfCell.

(** cmd_background_handler_authenticate_riot_certs
    (cmd_background_handler.c:254-265). *)
Definition authenticate_riot_certs (s : state) : state * N :=
  submit_event s AUTH_RIOT None CERT_VALIDATING CERT_INVALID CERT_INVALID CertCell.

(** cmd_background_handler_debug_log_clear, _debug_log_fill, _reboot_device
    (cmd_background_handler.c:224-250, 284-294) and
    cmd_background_handler_generate_aux_key (567-596). *)
Definition debug_log_clear (s : state) : state * N := submit_event s DEBUG_LOG_CLEAR None 0 0 0 NoCell.
Definition debug_log_fill (s : state) : state * N := submit_event s DEBUG_LOG_FILL None 0 0 0 NoCell.
Definition reboot_device (s : state) : state * N := submit_event s REBOOT_DEVICE None 0 0 0 NoCell.
Definition generate_aux_key (s : state) (pointer : list N) : state * N :=
  submit_event s AUX_KEY_GEN (Some pointer) 0 0 0 NoCell.

(** cmd_background_handler_execute (cmd_background_handler.c:296-449), up to
    the call of the operation: which one, and with what.  The start of an
    authorized operation is announced (351-352). *)
Definition dispatch (s : state) : state * call :=
  if action s =? RUN_UNSEAL then (s, CUnseal (unseal_arguments (event_buffer s)))
  else if action s =? AUTHORIZED_OP then
    let pointer := window 0 POINTER (event_buffer s) in
    let data := if Nat.ltb POINTER (buffer_length s)
                then window POINTER (buffer_length s - POINTER) (event_buffer s) else [] in
    (set_conf s (fst (idents pointer)), COperation pointer data)
  else if action s =? DEBUG_LOG_CLEAR then (s, CClearLog)
  else if action s =? DEBUG_LOG_FILL then (s, CFillLog)
  else if action s =? AUTH_RIOT then (s, CVerifyCerts)
  else if action s =? AUX_KEY_GEN then (s, CGenerateAux (window 0 POINTER (event_buffer s)))
  else if action s =? REBOOT_DEVICE then (s, CReboot)
  else (s, CUnknown (action s)).

(** The rest of cmd_background_handler_execute: what is done with the result of
    the operation.  The key is what the unsealing left in its buffer; the reset
    flag starts out false (event_task_freertos.c) and is set by the operation or
    for a reboot. *)
Definition finish (s : state) (c : call) (status : N) (unsealed : list N) (wants_reset : bool)
  : state * bool :=
  match c with
  | CUnseal _ =>
      (set_att (set_key s unsealed)
         (if status =? 0 then status else STATUS ATT_FAILURE status), false)
  | COperation pointer _ =>
      (set_conf s (if status =? 0 then status else STATUS (snd (idents pointer)) status), wants_reset)
  | CVerifyCerts => (set_cert s (if status =? 0 then status else STATUS CERT_INVALID status), false)
  | CReboot => (s, true)
  | CGenerateAux _ | CClearLog | CFillLog => (s, false)
  | CUnknown _ =>
      let st := UNSUPPORTED_OP in
      let '(out, st) := if att s =? ATT_RUNNING then (AttCell, STATUS ATT_INTERNAL_ERROR st)
                        else (NoCell, st) in
      let '(out, st) := if conf s =? CONF_STARTING then (ConfCell, STATUS CONF_INTERNAL_ERROR st)
                        else (out, st) in
      let '(out, st) := if cert s =? CERT_VALIDATING then (CertCell, STATUS CERT_INVALID st)
                        else (out, st) in
      (set_cell s out st, false)
  end.

(** One step.  What cannot happen in the phase of the task is [Quiet] and
    changes nothing. *)
Definition coded (r : state * N) : state * output := (fst r, Code (snd r)).

Definition step (s : state) (i : input) : state * output :=
  match i with
  | StartUnseal r => coded (unseal_start s r)
  | UnsealResult room => unseal_result s room
  | Authorized p d => coded (execute_authorized_operation s p d)
  (* cmd_background_handler_get_authorized_operation_status (208-221) *)
  | OperationStatus => (s, Value (conf s))
  | Authenticate => coded (authenticate_riot_certs s)
  (* cmd_background_handler_get_riot_cert_chain_state (267-282) *)
  | ChainState => (s, Value (cert s))
  | Reboot => coded (reboot_device s)
  | ClearLog => coded (debug_log_clear s)
  | FillLog => coded (debug_log_fill s)
  | GenerateAux p => coded (generate_aux_key s p)
  | StartTask => match task s with Off => (set_task s Ready, Quiet) | _ => (s, Quiet) end
  | Take =>
      match task s with
      | Pending => let '(s', c) := dispatch s in (set_task s' (Running c), Calls c)
      | _ => (s, Quiet)
      end
  | Scribble b => match task s with Running (CUnseal _) => (set_key s b, Quiet) | _ => (s, Quiet) end
  | Return st k r =>
      match task s with
      | Running c => let '(s', reset) := finish s c st k r in (set_task s' Ready, Finished c reset)
      | _ => (s, Quiet)
      end
  | Other a b n =>
      match task s with
      | Ready => (set_task (set_event s a b n) Elsewhere, Code 0)
      | Off => (s, Code EVENT_NO_TASK)
      | _ => (s, Code EVENT_BUSY)
      end
  | OtherDone => match task s with Elsewhere => (set_task s Ready, OtherFinished) | _ => (s, Quiet) end
  end.

(** A history: what happened and what came out, in order. *)
Fixpoint run (s : state) (is : list input) : list (input * output) * state :=
  match is with
  | [] => ([], s)
  | i :: r => let '(s', o) := step s i in let '(t, s'') := run s' r in ((i, o) :: t, s'')
  end.

(** cmd_background_handler_init_state (cmd_background_handler.c:525-547).  [ca]:
    a root CA is stored. *)
Definition init (ca : bool) (buf : list N) : state :=
  mkState (if ca then CERT_VALID else CERT_INVALID) ATT_NONE_STARTED CONF_NONE_STARTED
    (repeat 0 KEY_LENGTH) Off 0 buf 0.
End MODEL.
