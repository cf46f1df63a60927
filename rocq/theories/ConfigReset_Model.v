(** * Resetting the configuration of the device
      (core/cmd_interface/config_reset.c, authorized_execution_config_reset.c)

    Modelled: which stores are cleared, in which order, where an operation
    stops and what it returns, and whether a device reset is asked for.  The
    stores are opaque: each call that clears one may succeed or return any
    error, also differently on every call.  Not modelled: null arguments, the
    debug log and what clearing does inside a store (the manifests, states,
    recovery images and keys have models of their own). *)
From Coq Require Import List NArith Bool Arith.
Import ListNotations.
Local Open Scope nat_scope.

(** What can be cleared: a manifest manager, a state manager, the
    certificates, the auxiliary key, the recovery regions, a key store. *)
Inductive store :=
  | Manifests (id : nat) | State (id : nat) | Certificates | AuxKey | RecoveryRegions | Keystore (id : nat).

(** struct config_reset (config_reset.h) as filled in by config_reset_init
    (config_reset.c:33-70). *)
Record config := mkConfig {
  c_bypass : list nat; c_platform : list nat; c_component : list nat; c_state : list nat;
  c_riot : bool; c_aux : bool; c_recovery : bool; c_keystores : list nat }.

Inductive code := Ok | NoManifests | NoCerts | External (e : N).

(** config_reset_init (config_reset.c:49-51): states need manifests. *)
Definition config_init (c : config) : code :=
  if negb (length (c_state c) =? 0) && (length (c_platform c) =? 0) && (length (c_bypass c) =? 0)
  then NoManifests else Ok.

Section MODEL.
(** The status of the n-th call that clears a store. *)
Variable answer : nat -> N.

(** Calls so far, and the status of the last operation. *)
Definition result := (list store * code)%type.

(** One loop over stores (config_reset.c:106-111 and the others alike). *)
Fixpoint clear_all (l : list store) (done : list store) : result :=
  match l with
  | [] => (done, Ok)
  | s :: l =>
      let status := answer (length done) in
      if (status =? 0)%N then clear_all l (done ++ [s]) else (done ++ [s], External status)
  end.

(** config_reset_restore_bypass (config_reset.c:93-114). *)
Definition restore_bypass (c : config) (done : list store) : result :=
  if length (c_bypass c) =? 0 then (done, NoManifests) else clear_all (map Manifests (c_bypass c)) done.

(** config_reset_restore_platform_config (config_reset.c:192-213). *)
Definition restore_platform (c : config) (done : list store) : result :=
  if length (c_platform c) =? 0 then (done, NoManifests) else clear_all (map Manifests (c_platform c)) done.

(** config_reset_clear_component_manifests (config_reset.c:222-244). *)
Definition clear_component (c : config) (done : list store) : result :=
  if length (c_component c) =? 0 then (done, NoManifests) else clear_all (map Manifests (c_component c)) done.

(** config_reset_clear_provisioned_certificates (config_reset.c:253-264). *)
Definition clear_certificates (c : config) (done : list store) : result :=
  if c_riot c then clear_all [Certificates] done else (done, NoCerts).

(** A loop that leaves [status] alone if there is nothing to do. *)
Definition clear_some (l : list store) (r : result) : result :=
  match l with [] => r | _ => clear_all l (fst r) end.

(** "if ((status != 0) && (status != CONFIG_RESET_NO_MANIFESTS)) return status". *)
Definition goes_on (c : code) : bool := match c with Ok | NoManifests => true | _ => false end.

Definition is_ok (c : code) : bool := match c with Ok => true | _ => false end.

(** config_reset_restore_defaults (config_reset.c:123-183).  [status] keeps the
    value of clearing the component manifests until something overwrites it. *)
Definition restore_defaults (c : config) (done : list store) : result :=
  let r := restore_bypass c done in
  if negb (goes_on (snd r)) then r else
  let r := restore_platform c (fst r) in
  if negb (goes_on (snd r)) then r else
  let r := clear_component c (fst r) in
  if negb (goes_on (snd r)) then r else
  let r := clear_some (map State (c_state c)) r in
  if negb (goes_on (snd r)) then r else
  let r := clear_some (if c_riot c then [Certificates] else []) r in
  if negb (goes_on (snd r)) then r else
  let r := clear_some (if c_aux c then [AuxKey] else []) r in
  if negb (goes_on (snd r)) then r else
  let r := clear_some (if c_recovery c then [RecoveryRegions] else []) r in
  if negb (goes_on (snd r)) then r else
  clear_some (map Keystore (c_keystores c)) r.

(** The authorized operations (authorized_execution_config_reset.c): which
    handler is run, and whether a reset is requested. *)
Inductive operation := RestoreBypass | RestoreDefaults | ClearPlatform | ClearComponent | ClearCertificates.

Definition handler (o : operation) : config -> list store -> result :=
  match o with
  | RestoreBypass => restore_bypass | RestoreDefaults => restore_defaults
  | ClearPlatform => restore_platform | ClearComponent => clear_component
  | ClearCertificates => clear_certificates
  end.

Definition needs_reset (o : operation) : bool := match o with ClearPlatform => true | _ => false end.

(** authorized_execution_config_reset_execute
    (authorized_execution_config_reset.c:12-43): calls, status, reset request. *)
Definition execute (o : operation) (c : config) (reset_req : bool) : list store * code * bool :=
  let '(done, status) := handler o c [] in
  (done, status, if is_ok status && needs_reset o then true else reset_req).
End MODEL.
