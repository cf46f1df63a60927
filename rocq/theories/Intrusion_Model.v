(** Model of core/intrusion/intrusion_manager.c, intrusion_manager_async.c and authorized_execution_reset_intrusion.c.

    One step is one call of the manager, a notification of the asynchronous manager, or a restart.  The recorded intrusion state (struct
    intrusion_state) is one bit that survives restarts; each of its calls, and each update of the PCR, may fail, and a failed call that sets or
    clears the bit may or may not have done so.  The PCR is the last value that was measured.
    Simplifications: the version and the ID of the measurement, locks and the log are not modelled; a manager whose initialization failed is
    not used until the next restart. *)
From Coq Require Import List Bool.
Import ListNotations.

(** intrusion_manager.h:20-24 *)
Inductive value := No_intrusion | Intrusion | Unknown.
(** event_data, the value that the digest in the PCR stands for, the recorded bit, and whether the manager was initialized *)
Record state := St { data : value; digest : value; recorded : bool; ready : bool }.

(** intrusion_state.h: check, with the answer read from the recorded bit, and set and clear, with whether a failed call has changed the bit *)
Inductive checking := Answers | Fails | Deferred.
Inductive writing := Done | Failed (changed : bool).
Inductive notice := On_intrusion | On_no_intrusion | On_error.
Inductive op :=
| Handle (pcr : bool) (w : writing)
| Reset (active : option bool) (w : writing) (pcr : bool)
| Check (async : bool) (c : checking) (pcr : bool)
| Notify (n : notice) (pcr : bool)
| Restart (pcr : bool).

(** intrusion_manager.c:24-41, intrusion_manager_update_measurement: whether the update worked, and the state after it *)
Definition update (s : state) (v : value) (force pcr : bool) : bool * state :=
  (pcr, St (if pcr || force then v else data s) (if pcr then v else digest s) (recorded s) (ready s)).
Definition write (s : state) (v : bool) (w : writing) : bool * state :=
  match w with
  | Done => (true, St (data s) (digest s) v (ready s))
  | Failed changed => (false, St (data s) (digest s) (if changed then v else recorded s) (ready s))
  end.

(** Lines 43-63, intrusion_manager_handle_intrusion *)
Definition handle (s : state) (pcr : bool) (w : writing) : bool * state :=
  let '(a, s) := update s Intrusion true pcr in
  let '(b, s) := write s true w in
  (a && b, s).
(** Lines 65-96, intrusion_manager_reset_intrusion; authorized_execution_reset_intrusion.c:13-40 returns what it returns *)
Definition reset (s : state) (active : option bool) (w : writing) (pcr : bool) : bool * state :=
  match active with
  | None => (false, s)
  | Some true => (false, s)
  | Some false =>
    match write s false w with
    | (true, s) => update s No_intrusion false pcr
    | (false, s) => (false, s)
    end
  end.
(** Lines 108-159, intrusion_manager_update_intrusion_state, for both managers *)
Definition check (s : state) (async : bool) (c : checking) (pcr : bool) : bool * state :=
  match c with
  | Answers => if recorded s then update s Intrusion true pcr else update s No_intrusion false pcr
  | Deferred => if async then (true, s) else let '(_, s) := update s Unknown true pcr in (false, s)
  | Fails => let '(_, s) := update s Unknown true pcr in (false, s)
  end.
(** intrusion_manager_async.c:40-61 *)
Definition notify (s : state) (n : notice) (pcr : bool) : state :=
  match n with
  | On_intrusion => snd (update s Intrusion true pcr)
  | On_no_intrusion => snd (update s No_intrusion false pcr)
  | On_error => snd (update s Unknown true pcr)
  end.
(** intrusion_manager.c:177-226, intrusion_manager_init, after the PCRs were cleared *)
Definition restart (s : state) (pcr : bool) : bool * state := (pcr, St Unknown Unknown (recorded s) pcr).

Definition step (s : state) (o : op) : bool * state :=
  match o with
  | Restart pcr => restart s pcr
  | _ =>
    if ready s then
      match o with
      | Handle pcr w => handle s pcr w
      | Reset active w pcr => reset s active w pcr
      | Check async c pcr => check s async c pcr
      | Notify n pcr => (true, notify s n pcr)
      | Restart pcr => restart s pcr
      end
    else (false, s)
  end.
Definition run (s : state) (l : list op) : state := fold_left (fun s o => snd (step s o)) l s.
(** A new device, before its first start *)
Definition new (b : bool) : state := St Unknown Unknown b false.
