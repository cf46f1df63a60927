(** What the recovery image properties talk about. *)
From Coq Require Import List NArith Bool Arith.
From Verif Require Import Base Flash_Base Recovery_Model.
Import ListNotations.
Local Open Scope N_scope.

(** Handles on the image of a region that clients have after some calls, from the calls and their answers. *)
Definition held1 {V} (h : region -> nat) (p : op V * answer) : region -> nat :=
  match p with
  | (GetEnd _ _, Image r) => set h r (S (h r))
  | (Free _ r, _) => set h r (pred (h r))
  | _ => h
  end.
Definition held {V} (l : list (op V * answer)) : region -> nat := fold_left held1 l (fun _ => 0%nat).

(** Clients return only images that they have. *)
Fixpoint honest {V} (h : region -> nat) (l : list (op V * answer)) : Prop :=
  match l with
  | [] => True
  | p :: q => match fst p with Free _ r => (0 < h r)%nat | _ => True end /\ honest (held1 h p) q
  end.

(** Calls in progress, from the calls made: the number of calls that get the image, and whether a call that clears a
    region has still to erase it. *)
Definition progress1 {V} (w : nat * bool) (p : op V * answer) : nat * bool :=
  match p with
  | (GetStart _, _) => (S (fst w), snd w)
  | (GetEnd _ _, Nothing) => w
  | (GetEnd _ _, _) => (pred (fst w), snd w)
  | (ClearStart _ _, Nothing) => (fst w, true)
  | (ClearEnd _ _, _) => (fst w, false)
  | _ => w
  end.

(** Updates are made by one thread, one call after the other, and activation does not come inside a call that gets the
    image.  Everything else may be interleaved. *)
Fixpoint serial {V} (w : nat * bool) (l : list (op V * answer)) : Prop :=
  match l with
  | [] => True
  | p :: q =>
    match fst p with
    | ClearStart _ _ | Write _ _ _ | EraseAll _ _ _ => snd w = false
    | Activate _ _ => snd w = false /\ fst w = 0%nat
    | _ => True
    end /\ serial (progress1 w p) q
  end.

(** Whether an update is under way, from the calls and their answers: a region has been cleared, and neither activated
    nor erased since. *)
Definition started1 {V} (b : bool) (p : op V * answer) : bool :=
  match p with
  | (ClearStart _ _, Nothing) => true
  | (Activate _ _, Incomplete) => b
  | (Activate _ _, _) => false
  | (EraseAll _ _ _, Done) => false
  | _ => b
  end.
Definition started {V} (l : list (op V * answer)) : bool := fold_left started1 l false.

(** Regions that do not share erase blocks and lie inside the address space; data buffers that do so too. *)
Record rcfg_ok (c : rcfg) : Prop := ROk {
  rc_blk : 0 < r_blk c;
  rc_end : forall r, r_base c r + r_size c < 2 ^ 32;
  rc_apart : r_two c = true -> forall x y, r_base c false <= x < r_base c false + r_size c -> r_base c true <= y < r_base c true + r_size c ->
             x / r_blk c <> y / r_blk c
}.
Definition op_ok {V} (c : rcfg) (o : op V) : Prop :=
  match o with Write _ d _ => N.of_nat (length d) + r_size c < 2 ^ 32 | _ => True end.
