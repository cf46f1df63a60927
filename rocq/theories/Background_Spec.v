(** * What background commands promise, in terms of histories

    A history is a list of pairs: what happened, and what came out.  Nothing here
    looks at the state of the handler. *)
From Coq Require Import List NArith Bool.
From Verif Require Import Base Unseal_Model Unseal_Spec Background_Model.
Import ListNotations.
Local Open Scope N_scope.

Definition history := list (input * output).

(** The last event that matters in a history, looking back from its end. *)
Fixpoint last_event {A} (matters : input * output -> option A) (h : history) (otherwise : A) : A :=
  match h with
  | [] => otherwise
  | e :: r => last_event matters r (match matters e with Some a => a | None => otherwise end)
  end.

(** Unsealing, as its client sees it. *)
Inductive unsealing : Type :=
| Nothing                     (* nothing started, or the key has been handed out *)
| InProgress
| Unsealed (k : list N)
| Failed (error : N)
| NotStarted                  (* there was no task *)
| Unregistered.               (* the task refused *)

Definition unseal_event (e : input * output) : option unsealing :=
  match e with
  | (StartUnseal _, Code c) =>
      if c =? 0 then Some InProgress
      else if c =? NO_TASK then Some NotStarted
      else if c =? EVENT_UNKNOWN_HANDLER then Some Unregistered else None
  | (Return status k _, Finished (CUnseal _) _) =>
      Some (if status =? 0 then Unsealed k else Failed status)
  | (UnsealResult _, Result _ _ (Some _)) => Some Nothing
  | _ => None
  end.

(** What a client with so much room is told. *)
Definition unseal_answer (u : unsealing) (room : nat) : output :=
  match u with
  | Nothing => Result 0 4 None
  | InProgress => Result 0 1 None
  | Unsealed k => if Nat.leb 32 room then Result 0 0 (Some k) else Result BUF_TOO_SMALL 0 None
  | Failed e => Result 0 (e mod 2 ^ 24 * 256 + 2) None
  | NotStarted => Result 0 (NO_TASK mod 2 ^ 24 * 256 + 5) None
  | Unregistered => Result 0 (EVENT_UNKNOWN_HANDLER mod 2 ^ 24 * 256 + 7) None
  end.

(** Authorized operations: the status they announce while they run, and the
    result. *)
Definition operation_event (idents : list N -> N * N) (e : input * output) : option N :=
  match e with
  | (Authorized _ _, Code c) =>
      if c =? 0 then Some 1
      else if c =? NO_TASK then Some (NO_TASK mod 2 ^ 24 * 256 + 8)
      else if c =? EVENT_UNKNOWN_HANDLER then Some (EVENT_UNKNOWN_HANDLER mod 2 ^ 24 * 256 + 9)
      else None
  | (Take, Calls (COperation p _)) => Some (fst (idents p))
  | (Return status _ _, Finished (COperation p _) _) =>
      Some (if status =? 0 then 0 else status mod 2 ^ 24 * 256 + snd (idents p))
  | _ => None
  end.

(** The certificate chain. *)
Definition chain_event (e : input * output) : option N :=
  match e with
  | (Authenticate, Code c) =>
      if c =? 0 then Some 2
      else if c =? NO_TASK then Some (NO_TASK mod 2 ^ 24 * 256 + 1)
      else if c =? EVENT_UNKNOWN_HANDLER then Some (EVENT_UNKNOWN_HANDLER mod 2 ^ 24 * 256 + 1)
      else None
  | (Return status _ _, Finished CVerifyCerts _) =>
      Some (if status =? 0 then 0 else status mod 2 ^ 24 * 256 + 1)
  | _ => None
  end.

(** What is accepted is executed. *)
Definition submission (i : input) : bool :=
  match i with
  | StartUnseal _ | Authorized _ _ | Authenticate | Reboot | ClearLog | FillLog | GenerateAux _ => true
  | _ => false
  end.

Fixpoint accepted (h : history) : list input :=
  match h with
  | [] => []
  | (i, o) :: r =>
      match o with
      | Code 0 => if submission i then i :: accepted r else accepted r
      | _ => accepted r
      end
  end.

Fixpoint calls (h : history) : list call :=
  match h with
  | [] => []
  | (_, Calls c) :: r => c :: calls r
  | _ :: r => calls r
  end.

Fixpoint finished (h : history) : list call :=
  match h with
  | [] => []
  | (_, Finished c _) :: r => c :: finished r
  | _ :: r => finished r
  end.

(** The operation somebody asked for. *)
Inductive asked : input -> call -> Prop :=
| asked_unseal : forall f, wellformed f -> asked (StartUnseal (encode f)) (CUnseal (Some (request_of f)))
| asked_operation : forall p d, asked (Authorized p d) (COperation p d)
| asked_certs : asked Authenticate CVerifyCerts
| asked_reboot : asked Reboot CReboot
| asked_clear : asked ClearLog CClearLog
| asked_fill : asked FillLog CFillLog
| asked_aux : forall p, asked (GenerateAux p) (CGenerateAux p).

(** What the commands are called with: unseal requests as the command accepts
    them, and pointers of eight bytes.  An unsealed key has 32 bytes, and so has
    the buffer that is written to while unsealing runs. *)
Definition proper (BUFFER : nat) (i : input) : Prop :=
  match i with
  | StartUnseal r => exists f, wellformed f /\ r = encode f
  | Authorized p _ => length p = 8%nat
  | GenerateAux p => length p = 8%nat
  | Other _ b _ => length b = BUFFER
  | _ => True
  end.

(** Whether the task has started, and what it is busy with: the last event. *)
Definition started_event (e : input * output) : option bool :=
  match e with (StartTask, _) => Some true | _ => None end.
Definition busy_event (e : input * output) : option bool :=
  match e with
  | (_, Finished _ _) => Some false
  | (_, OtherFinished) => Some false
  | (Other _ _ _, Code 0) => Some true
  | (i, Code 0) => if submission i then Some true else None
  | _ => None
  end.
Definition size (i : input) : nat :=
  match i with
  | StartUnseal r => length r
  | Authorized p d => length p + length d
  | GenerateAux p => length p
  | _ => 0
  end.
