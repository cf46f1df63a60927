(** * What a user expects of an event task

    An event task is an atomic machine: it is being prepared, or ready, or has
    one event waiting, or is executing one event.  A submission either is
    refused because it is not ready, or puts exactly its event in place; each
    event is executed once, by its handler, which sees exactly the submitted
    action and data for as long as it runs. *)
From Coq Require Import List NArith ZArith Bool Arith.
From Verif Require Import EventTask_Model.
Import ListNotations.

Inductive phase : Type :=
  | Off                        (* there is no task *)
  | Down (prepared : nat)      (* this many handlers have been prepared *)
  | Ready
  | Pending (r : request)
  | Running (r : request).

(** The bytes a submission carries. *)
Definition payload (r : request) : list N :=
  match r_data r with
  | Some d => firstn (r_len r) d
  | None => []
  end.

(** The cells after the starting status of a submission is recorded. *)
Definition begun (r : request) (m : mem) : mem :=
  match r_status r with
  | Some (c, v) => put m c v
  | None => m
  end.

(** One event of the atomic machine with the given handlers. *)
Inductive atomic (hs : list nat) : phase * mem -> event -> phase * mem -> Prop :=
  | a_called : forall ph m n t o, atomic hs (ph, m) (Called n t o) (ph, m)
  | a_returned : forall ph m n st, atomic hs (ph, m) (Returned n st) (ph, m)
  | a_created : forall m, atomic hs (Off, m) Created (Down 0, m)
  | a_prepared : forall k h m, nth_error hs k = Some h ->
      atomic hs (Down k, m) (Prepared h) (Down (S k), m)
  | a_opened : forall m, atomic hs (Down (length hs), m) Opened (Ready, m)
  | a_missing : forall m n, atomic hs (Off, m) (Missing n) (Off, m)
  | a_refuse : forall ph m n, ph <> Off -> ph <> Ready -> atomic hs (ph, m) (Refuse n) (ph, m)
  | a_commit : forall m n r, List.In (r_handler r) hs ->
      atomic hs (Ready, m) (Commit n r) (Pending r, begun r m)
  | a_access : forall ph m n f v m', f m = (m', v) -> atomic hs (ph, m) (Access n f v) (ph, m')
  | a_started : forall r m, atomic hs (Pending r, m) (Started (r_handler r)) (Running r, m)
  | a_saw : forall r m,
      atomic hs (Running r, m) (Saw (r_handler r) (r_action r) (payload r)) (Running r, m)
  | a_wrote : forall r m c v, atomic hs (Running r, m) (Wrote c v) (Running r, put m c v)
  | a_reset : forall r m, atomic hs (Running r, m) SystemReset (Running r, m)
  | a_finished : forall r m, atomic hs (Running r, m) Finished (Ready, m).

Inductive behaves (hs : list nat) : phase * mem -> list event -> phase * mem -> Prop :=
  | b_nil : forall x, behaves hs x [] x
  | b_snoc : forall x y z tr e,
      behaves hs x tr y -> atomic hs y e z -> behaves hs x (tr ++ [e]) z.

(** The events of call [n]. *)
Definition of_call (n : nat) (e : event) : bool :=
  match e with
  | Called k _ _ | Missing k | Refuse k | Commit k _ | Dropped k | Access k _ _
  | Returned k _ => k =? n
  | _ => false
  end.
Definition call_events (n : nat) (tr : list event) : list event := filter (of_call n) tr.

(** The whole of a call, from the call to the return.  A submission returns
    success exactly if it took effect. *)
Inductive whole_call (capacity n : nat) : list event -> Prop :=
  | w_too_big : forall t r, capacity < r_len r ->
      whole_call capacity n [Called n t (Submit r); Returned n TooMuchData]
  | w_missing : forall t r, r_len r <= capacity ->
      whole_call capacity n [Called n t (Submit r); Missing n; Returned n NoTask]
  | w_busy : forall t r, r_len r <= capacity ->
      whole_call capacity n [Called n t (Submit r); Refuse n; Returned n TaskBusy]
  | w_success : forall t r, r_len r <= capacity ->
      whole_call capacity n [Called n t (Submit r); Commit n r; Returned n Success]
  | w_locked : forall t f v,
      whole_call capacity n [Called n t (Locked f); Access n f v; Returned n (Value v)].

Definition part_of_call (capacity n : nat) (evs : list event) : Prop :=
  evs = [] \/ exists rest, whole_call capacity n (evs ++ rest).

(** How the interface is meant to be used: the task is started once, events
    are submitted for registered handlers only, and the data is as long as it
    is said to be. *)
Definition proper_op (hs : list nat) (o : op) : Prop :=
  match o with
  | Submit r =>
      List.In (r_handler r) hs /\
      match r_data r with Some d => r_len r <= length d | None => True end
  | Cancel => False
  | Locked _ => True
  end.
Definition proper_choice (hs : list nat) (ch : choice) : Prop :=
  match ch with Call _ o => proper_op hs o | _ => True end.
Definition starts (sch : list choice) : nat :=
  length (filter (fun ch => match ch with Start => true | _ => false end) sch).
Definition proper (hs : list nat) (sch : list choice) : Prop :=
  Forall (proper_choice hs) sch /\ starts sch <= 1.

(** Nobody is inside a call and the task waits for a notification. *)
Definition quiet (s : state) : Prop :=
  (forall t, s_clients s t = Idle) /\ s_worker s = WTake /\ s_count s = 0.

(** The submissions that took effect, and the executions that began and
    ended. *)
Definition commits (tr : list event) : list request :=
  flat_map (fun e => match e with Commit _ r => [r] | _ => [] end) tr.
Definition begins (tr : list event) : list nat :=
  flat_map (fun e => match e with Started h => [h] | _ => [] end) tr.
Definition ends (tr : list event) : nat :=
  length (filter (fun e => match e with Finished => true | _ => false end) tr).
