(** Model of core/recovery/recovery_image_manager.c.

    Both regions are on one flash (regions on two devices are two parts of it), which is written and erased as in
    FlashUpdater_Model and FlashUtil_Model with any device faults.  Verification of the image in a region is a function of
    the contents of the region and of what happens meanwhile (engine failures, the active PFM); an image is taken to
    lie inside its region.  Calls that use the flash after they release the lock, and the call that reads the region
    again after it, are separate steps, so that calls of other threads can come between.
    Not modelled: NULL arguments, observers (a notification hands the image out and takes it back), the port number, and
    failures to save the active region (the state manager only rejects unknown regions). *)
From Coq Require Import List NArith ZArith Bool Arith.
From Verif Require Import Base Flash_Base FlashUtil_Model FlashUpdater_Model.
Import ListNotations.
Local Open Scope N_scope.

(** What the device does during a call. *)
Record faults := Faults { f_read : N -> bool; f_erase : N -> bool; f_write : N -> option nat }.

(** Region 1 is [false], region 2 is [true]. *)
Notation region := bool.

Record rcfg := RCfg { r_two : bool; r_base : region -> N; r_size : N; r_blk : N }.

(** recovery_image_manager.h:38-70, struct recovery_image_manager, the active region of the host state, and the calls
    that have released the lock but not returned: those that get an image and the one that clears a region. *)
Record mgr := Mgr {
  m_flash : image; m_valid : region -> bool; m_ref : region -> nat; m_upd : region -> updater;
  m_updating : option region; m_active : region;
  m_getting : list (region * bool); m_clearing : option N
}.

Definition set {A} (f : region -> A) (r : region) (x : A) : region -> A := fun q => if Bool.eqb q r then x else f q.

(** recovery_image_manager.c:24-52, get_region for one and two regions. *)
Definition get_region (c : rcfg) (active_region active : bool) : region :=
  if r_two c then (if active then active_region else negb active_region) else false.

(** The contents of a region. *)
Definition contents (c : rcfg) (m : image) (r : region) : list N := img_read m (r_base c r) (N.to_nat (r_size c)).

Inductive answer :=
| Image (r : region) | NoImage          (* result of getting the image *)
| Done | InUse | TooLarge | NotCleared | Incomplete | NonePending | FlashError | BadImage | Nothing.

Section Manager.
(** Results of verifying an image: it is good, it is bad, or verification failed. *)
Inductive verdict := Good | Bad | Fails.
Variable vfaults : Type.
Variable verify : vfaults -> list N -> verdict.
Variable c : rcfg.

(** recovery_image_manager.c:83-106 and 413-566, initialisation for one and two regions: [None] if it fails. *)
Definition init (m : image) (active : region) (v : vfaults) : option mgr :=
  let r := get_region c active true in
  let s ok := Mgr m (set (fun _ => false) r ok) (fun _ => 0%nat) (fun q => upd_init (r_base c q) (r_size c)) None active [] None in
  match verify v (contents c m r) with Good => Some (s true) | Bad => Some (s false) | Fails => None end.

Inductive op :=
| GetStart                               (* get_active_recovery_image up to the unlock *)
| GetEnd (k : nat)                       (* the return of the k-th call that is in progress *)
| Free (r : region)
| ClearStart (size : N)                  (* clear_recovery_image_region up to the unlock *)
| ClearEnd (f : faults)                  (* the rest *)
| Write (data : list N) (f : faults)
| Activate (v : vfaults)
| EraseAll (f1 f2 : faults).

(** recovery_image_manager.c:174-190 *)
Definition get_start (s : mgr) : mgr :=
  let r := get_region c (m_active s) true in
  Mgr (m_flash s) (m_valid s) (if m_valid s r then set (m_ref s) r (S (m_ref s r)) else m_ref s) (m_upd s) (m_updating s) (m_active s)
      (m_getting s ++ [(r, m_valid s r)]) (m_clearing s).

(** recovery_image_manager.c:192: the validity is read again. *)
Definition get_end (s : mgr) (k : nat) : mgr * answer :=
  match nth_error (m_getting s) k with
  | None => (s, Nothing)
  | Some (r, _) =>
    (Mgr (m_flash s) (m_valid s) (m_ref s) (m_upd s) (m_updating s) (m_active s)
         (firstn k (m_getting s) ++ skipn (S k) (m_getting s)) (m_clearing s),
     if m_valid s r then Image r else NoImage)
  end.

(** recovery_image_manager.c:240-266 *)
Definition free (s : mgr) (r : region) : mgr :=
  Mgr (m_flash s) (m_valid s) (set (m_ref s) r (pred (m_ref s r))) (m_upd s) (m_updating s) (m_active s) (m_getting s) (m_clearing s).

(** recovery_image_manager.c:195-229 *)
Definition clear_start (s : mgr) (size : N) : mgr * answer :=
  let r := get_region c (m_active s) false in
  if (m_ref s r =? 0)%nat then
    match upd_check_size (m_upd s r) size with
    | UOk => (Mgr (m_flash s) (set (m_valid s) r false) (m_ref s) (m_upd s) (Some r) (m_active s) (m_getting s) (Some size), Nothing)
    | _ => (s, TooLarge)
    end
  else (s, InUse).

(** recovery_image_manager.c:231-237: [updating] is read again. *)
Definition clear_end (s : mgr) (f : faults) : mgr * answer :=
  match m_clearing s, m_updating s with
  | None, _ => (s, Nothing)
  | Some size, None =>
    (Mgr (m_flash s) (m_valid s) (m_ref s) (m_upd s) (m_updating s) (m_active s) (m_getting s) None, FlashError)
  | Some size, Some r =>
    let '(u, m, x) := prepare_for_update (f_read f) (f_erase f) (r_blk c) (m_upd s r) (m_flash s) size in
    (Mgr m (m_valid s) (m_ref s) (set (m_upd s) r u) (m_updating s) (m_active s) (m_getting s) None,
     match x with UOk => Done | _ => FlashError end)
  end.

(** recovery_image_manager.c:268-280 *)
Definition write (s : mgr) (data : list N) (f : faults) : mgr * answer :=
  match m_updating s with
  | None => (s, NotCleared)
  | Some r =>
    let '(u, m, x) := upd_write (f_write f) (m_upd s r) (m_flash s) data in
    (Mgr m (m_valid s) (m_ref s) (set (m_upd s) r u) (m_updating s) (m_active s) (m_getting s) (m_clearing s),
     match x with UOk => Done | UOutOfSpace => TooLarge | _ => FlashError end)
  end.

(** recovery_image_manager.c:153-172 and 282-330 *)
Definition activate (s : mgr) (v : vfaults) : mgr * answer :=
  if (match m_updating s with Some q => (0 <? remaining_bytes (m_upd s q))%Z | None => false end) then (s, Incomplete)
  else
    let r := get_region c (m_active s) false in
    let s0 := Mgr (m_flash s) (m_valid s) (m_ref s) (m_upd s) None (m_active s) (m_getting s) (m_clearing s) in
    if m_valid s r then (s0, Done)
    else
      match m_updating s with
      | None => (s0, NonePending)
      | Some _ =>
        match verify v (contents c (m_flash s) r) with
        | Good =>
          let valid := set (m_valid s) r true in
          if Bool.eqb r (get_region c (m_active s) true) then
            (Mgr (m_flash s) valid (m_ref s) (m_upd s) None (m_active s) (m_getting s) (m_clearing s), Done)
          else
            (Mgr (m_flash s) (set valid (m_active s) false) (m_ref s) (m_upd s) None (negb (m_active s)) (m_getting s) (m_clearing s), Done)
        | _ => (s0, BadImage)
        end
      end.

(** recovery_image_manager.c:349-360, recovery_image_manager_erase_recovery_region *)
Definition erase_one (s : mgr) (r : region) (f : faults) : mgr * answer :=
  if (m_ref s r =? 0)%nat then
    let '(m, x) := erase_region (f_erase f) (r_blk c) (m_flash s) (r_base c r) (N.to_nat (r_size c)) in
    (Mgr m (set (m_valid s) r false) (m_ref s) (m_upd s) (m_updating s) (m_active s) (m_getting s) (m_clearing s),
     match x with FuOk => Done | _ => FlashError end)
  else (s, InUse).

(** recovery_image_manager.c:362-399 *)
Definition erase_all (s : mgr) (f1 f2 : faults) : mgr * answer :=
  let r1 := get_region c (m_active s) false in
  let r2 := get_region c (m_active s) true in
  match erase_one s r1 f1 with
  | (s1, Done) =>
    let s2 := Mgr (m_flash s1) (m_valid s1) (m_ref s1) (m_upd s1) None (m_active s1) (m_getting s1) (m_clearing s1) in
    if Bool.eqb r1 r2 then (s2, Done) else erase_one s2 r2 f2
  | p => p
  end.

Definition step (s : mgr) (o : op) : mgr * answer :=
  match o with
  | GetStart => (get_start s, Nothing)
  | GetEnd k => get_end s k
  | Free r => (free s r, Nothing)
  | ClearStart n => clear_start s n
  | ClearEnd f => clear_end s f
  | Write d f => write s d f
  | Activate v => activate s v
  | EraseAll f1 f2 => erase_all s f1 f2
  end.

Fixpoint run (s : mgr) (l : list op) : mgr * list answer :=
  match l with
  | [] => (s, [])
  | o :: q => let '(s1, a) := step s o in let '(s2, b) := run s1 q in (s2, a :: b)
  end.
End Manager.
