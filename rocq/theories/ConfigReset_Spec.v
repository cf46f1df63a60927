(** * What an operation is to clear *)
From Coq Require Import List NArith Bool.
From Verif Require Import ConfigReset_Model.
Import ListNotations.

(** The stores an operation is for, in order. *)
Definition stores (o : operation) (c : config) : list store :=
  match o with
  | RestoreBypass => map Manifests (c_bypass c)
  | ClearPlatform => map Manifests (c_platform c)
  | ClearComponent => map Manifests (c_component c)
  | ClearCertificates => if c_riot c then [Certificates] else []
  | RestoreDefaults =>
      map Manifests (c_bypass c) ++ map Manifests (c_platform c) ++ map Manifests (c_component c) ++
      map State (c_state c) ++ (if c_riot c then [Certificates] else []) ++
      (if c_aux c then [AuxKey] else []) ++ (if c_recovery c then [RecoveryRegions] else []) ++
      map Keystore (c_keystores c)
  end.

(** Clearing stores in order up to the first error: the calls made, and the
    error if there is one. *)
Inductive cleared (answer : nat -> N) : nat -> list store -> list store -> option N -> Prop :=
| cl_done : forall n, cleared answer n [] [] None
| cl_next : forall n s l d e, answer n = 0%N -> cleared answer (S n) l d e ->
    cleared answer n (s :: l) (s :: d) e
| cl_error : forall n s l, answer n <> 0%N -> cleared answer n (s :: l) [s] (Some (answer n)).
