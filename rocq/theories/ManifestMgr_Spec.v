(** What the properties of manifest managers talk about. *)
From Coq Require Import List NArith Bool Arith.
From Verif Require Import Base Flash_Base ManifestMgr_Model.
Import ListNotations.
Local Open Scope N_scope.

(** Handles on the manifest of a region that clients have after some calls, from the calls and their answers.  A restart
    ends all of them. *)
Definition held1 {V} (h : region -> nat) (p : sop V * sanswer) : region -> nat :=
  match p with
  | (Call _ (GetEnd _ _), Answer (Manifest r)) => set h r (S (h r))
  | (Call _ (Free _ r), Answer _) => set h r (pred (h r))
  | (Reboot _ _, _) => fun _ => 0%nat
  | _ => h
  end.
Definition held {V} (l : list (sop V * sanswer)) : region -> nat := fold_left held1 l (fun _ => 0%nat).

(** Clients return only manifests that they have. *)
Fixpoint honest {V} (h : region -> nat) (l : list (sop V * sanswer)) : Prop :=
  match l with
  | [] => True
  | p :: q => match fst p with Call _ (Free _ r) => (0 < h r)%nat | _ => True end /\ honest (held1 h p) q
  end.

(** Calls in progress, from the calls made: the number of calls that get a manifest, and whether a call that clears the
    pending region has still to erase it. *)
Definition progress1 {V} (w : nat * bool) (p : sop V * sanswer) : nat * bool :=
  match p with
  | (Call _ (GetStart _ _), Answer _) => (S (fst w), snd w)
  | (Call _ (GetEnd _ _), Answer Nothing) => w
  | (Call _ (GetEnd _ _), Answer _) => (pred (fst w), snd w)
  | (Call _ (ClearStart _ _), Answer Nothing) => (fst w, true)
  | (Call _ (ClearEnd _ _), Answer _) => (fst w, false)
  | (Reboot _ _, _) => (0%nat, false)
  | _ => w
  end.

(** Updates are made by one thread, one call after the other; verification and activation do not come inside a call that
    gets a manifest.  Everything else may be interleaved, and the device may restart at any point. *)
Fixpoint serial {V} (w : nat * bool) (l : list (sop V * sanswer)) : Prop :=
  match l with
  | [] => True
  | p :: q =>
    match fst p with
    | Call _ (ClearStart _ _) | Call _ (Write _ _ _) | Call _ (ClearAll _ _ _) => snd w = false
    | Call _ (Verify _ _ _) => snd w = false /\ fst w = 0%nat
    | Call _ (Activate _) => fst w = 0%nat
    | _ => True
    end /\ serial (progress1 w p) q
  end.

(** Regions that do not share erase blocks and lie inside the address space; data buffers that do so too. *)
Record mcfg_ok (c : mcfg) : Prop := MOk {
  mc_blk : 0 < r_blk c;
  mc_end : forall r, r_base c r + r_size c < 2 ^ 32;
  mc_apart : forall x y, r_base c false <= x < r_base c false + r_size c -> r_base c true <= y < r_base c true + r_size c ->
             x / r_blk c <> y / r_blk c
}.
Definition op_ok {V} (c : mcfg) (o : sop V) : Prop :=
  match o with Call _ (Write _ d _) => N.of_nat (length d) + r_size c < 2 ^ 32 | _ => True end.

(** Platform identifiers that may replace each other. *)
Definition compatible (sku : bool) (old new : list N) : Prop :=
  if sku then exists t, new = old ++ t else new = old.

(** The manifest that the manager offers as the active or the pending one. *)
Definition offered (c : mcfg) (s : mgr) (active : bool) : option (list N) :=
  let r := if active then m_active s else negb (m_active s) in
  if m_valid s r then Some (contents c (m_flash s) r) else None.

(** A start or a call that verifies region [r], with outcome [v] of the engines, and lets the manifest pass. *)
Definition verification {V} (o : sop V) (a : sanswer) (r : region) (v : V) : Prop :=
  match o with
  | Reboot _ b => a = Start Booted /\ v = if r then b_v2 V b else b_v1 V b
  | Call _ (Verify _ v' post) => a = Answer (if post then Done else PostFailed) /\ v = v'
  | _ => False
  end.

(** No call or start in the history clears the manifests, and when the device restarts the region that is active is the one
    that is stored. *)
Fixpoint undisturbed {V} (verify : V -> list N -> verdict) (c : mcfg) (y : sys) (l : list (sop V)) : Prop :=
  match l with
  | [] => True
  | o :: q =>
    match o with
    | Call _ (ClearAll _ _ _) => False
    | Reboot _ _ =>
      match y with Up s r => r = m_active s | Down _ _ => True end /\
      snd (sstep V verify c y o) <> Start Cleared /\ sflash (fst (sstep V verify c y o)) = sflash y
    | _ => True
    end /\ undisturbed verify c (fst (sstep V verify c y o)) q
  end.
