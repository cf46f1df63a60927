(** Model of core/manifest/manifest_manager_flash.c: two flash regions for manifests of one kind, an active and a pending
    one, with what core/state_manager/state_manager.c keeps about them.

    The regions are on one flash (regions on two devices are two parts of it), which is written and erased as in
    FlashUpdater_Model and FlashUtil_Model with any device faults.  Verification of the manifest in a region is a function of
    the contents of the region and of what happens meanwhile (failures of reads and engines, the keys); a manifest is taken to
    lie inside its region.  It gives what the manifest object keeps: the identifier, the platform and whether the manifest
    is empty.  Calls that use the flash after they release the lock, and the call that reads the region again after it, are
    separate steps, so that calls of other threads can come between.  The active region is kept in memory and written to
    flash by a step of its own; a reboot starts with what was written last.
    Not modelled: NULL arguments, observers, the port number, log messages, and failures to save the active region (the
    state manager only rejects unknown regions).  Platform identifiers are C strings, given without the terminator. *)
From Coq Require Import List NArith ZArith Bool Arith.
From Verif Require Import Base Flash_Base FlashUtil_Model FlashUpdater_Model.
Import ListNotations.
Local Open Scope N_scope.

(** What the device does during a call. *)
Record faults := Faults { f_read : N -> bool; f_erase : N -> bool; f_write : N -> option nat }.

(** Region 1 is [false], region 2 is [true]. *)
Notation region := bool.

(** The regions have the size of an erase block, FLASH_BLOCK_SIZE; manifest_manager_flash.h:64, sku_upgrade_permitted. *)
Record mcfg := MCfg { r_base : region -> N; r_size : N; r_blk : N; sku_upgrade : bool }.

(** What a manifest object knows of a manifest that it has verified: manifest_flash.h:19-31, header.id, platform_id and the
    result of is_empty. *)
Record info := Info { i_id : N; i_platform : list N; i_empty : bool }.

(** manifest_manager_flash.h:22-37, the states of the regions, with the manifest objects ([None]: manifest_valid is not
    set); the active region of the state manager; and the calls that have released the lock but not returned: those
    that get a manifest and the one that clears the pending region. *)
Record mgr := Mgr {
  m_flash : image; m_valid : region -> bool; m_ref : region -> nat; m_upd : region -> updater; m_info : region -> option info;
  m_updating : option region; m_active : region;
  m_getting : list (region * bool); m_clearing : option N
}.

Definition set {A} (f : region -> A) (r : region) (x : A) : region -> A := fun q => if Bool.eqb q r then x else f q.

(** manifest_manager_flash.c:274-287, manifest_manager_flash_get_region; state_manager.c:597-605 *)
Definition get_region (s : mgr) (active : bool) : region := if active then m_active s else negb (m_active s).

(** The contents of a region. *)
Definition contents (c : mcfg) (m : image) (r : region) : list N := img_read m (r_base c r) (N.to_nat (r_size c)).

Definition with_valid (s : mgr) (f : region -> bool) : mgr :=
  Mgr (m_flash s) f (m_ref s) (m_upd s) (m_info s) (m_updating s) (m_active s) (m_getting s) (m_clearing s).
Definition with_updating (s : mgr) (u : option region) : mgr :=
  Mgr (m_flash s) (m_valid s) (m_ref s) (m_upd s) (m_info s) u (m_active s) (m_getting s) (m_clearing s).

Inductive answer :=
| Manifest (r : region) | NoManifest         (* result of getting a manifest *)
| Done | InUse | TooLarge | NotCleared | Incomplete | NonePending | HasPending | InvalidId | Incompatible | FlashError
| BadManifest | PostFailed | Nothing.

Definition list_eqb (a b : list N) : bool := if list_eq_dec N.eq_dec a b then true else false.

(** manifest_flash.c:1510-1530, manifest_flash_compare_id: [true] for 0. *)
Definition compare_id (first second : option info) : bool :=
  match second with
  | None => false
  | Some b => match first with None => true | Some a => i_id a <? i_id b end
  end.

(** manifest_flash.c:1542-1560, manifest_flash_compare_platform_id: 0, 1 or an error. *)
Inductive compared := Same | Different | CompareError.
Definition compare_platform (sku : bool) (first second : option info) : compared :=
  match first, second with
  | Some a, Some b =>
    if (if sku then list_eqb (firstn (length (i_platform a)) (i_platform b)) (i_platform a)
        else list_eqb (i_platform a) (i_platform b))
    then Same else Different
  | _, _ => CompareError
  end.

(** manifest_manager_flash.c:56-75 *)
Definition check_pending_id (s : mgr) : mgr * answer :=
  let a := get_region s true in
  let p := get_region s false in
  if m_valid s a && m_valid s p then
    if compare_id (m_info s a) (m_info s p) then (s, Done) else (with_valid s (set (m_valid s) p false), InvalidId)
  else (s, Done).

(** manifest_manager_flash.c:85-108 *)
Definition check_pending_platform (c : mcfg) (s : mgr) : mgr * answer :=
  let a := get_region s true in
  let p := get_region s false in
  if m_valid s a && m_valid s p then
    match compare_platform (sku_upgrade c) (m_info s a) (m_info s p) with
    | Same => (s, Done)
    | Different => (with_valid s (set (m_valid s) p false), Incompatible)
    | CompareError => (with_valid s (set (m_valid s) p false), BadManifest)
    end
  else (s, Done).

(** manifest_manager_flash.c:543-556, manifest_manager_flash_clear_manifest *)
Definition clear_manifest (c : mcfg) (s : mgr) (r : region) (f : faults) : mgr * answer :=
  if (m_ref s r =? 0)%nat then
    let '(m, x) := erase_region (f_erase f) (r_blk c) (m_flash s) (r_base c r) (N.to_nat (r_size c)) in
    (Mgr m (set (m_valid s) r false) (m_ref s) (m_upd s) (m_info s) (m_updating s) (m_active s) (m_getting s) (m_clearing s),
     match x with FuOk => Done | _ => FlashError end)
  else (s, InUse).

(** manifest_manager_flash.c:567-583, manifest_manager_flash_clear_all_manifests *)
Definition clear_all (c : mcfg) (s : mgr) (f1 f2 : faults) : mgr * answer :=
  match clear_manifest c s (get_region s false) f1 with
  | (s1, Done) => clear_manifest c (with_updating s1 None) (get_region s1 true) f2
  | p => p
  end.

Section Manager.
(** Results of verifying a manifest: it is good, it is bad, or verification failed. *)
Inductive verdict := Good (i : info) | Bad | Fails.
Variable vfaults : Type.
Variable verify : vfaults -> list N -> verdict.
Variable c : mcfg.

(** manifest_manager_flash.c:25-45, manifest_manager_flash_verify_manifest: [None] for an error.  manifest_flash.c:263 and the
    callers: a manifest object that fails to verify is not valid. *)
Definition verify_region (s : mgr) (r : region) (v : vfaults) : option mgr :=
  let with_info ok i := Mgr (m_flash s) (set (m_valid s) r ok) (m_ref s) (m_upd s) (set (m_info s) r i) (m_updating s) (m_active s)
                            (m_getting s) (m_clearing s) in
  match verify v (contents c (m_flash s) r) with
  | Good i => Some (with_info true (Some i))
  | Bad => Some (with_info false None)
  | Fails => None
  end.

(** How a start of the device ends: the manager works; it works after both regions have been cleared since the pending manifest
    was empty; initialisation fails. *)
Inductive started := Booted | Cleared | Failed.

(** manifest_manager_flash.c:117-137, manifest_manager_flash_check_empty_manifest; [e]: is_empty fails *)
Definition check_empty (s : mgr) (e : bool) (f1 f2 : faults) : mgr * started :=
  let p := get_region s false in
  if m_valid s p then
    if e then (s, Failed)
    else match m_info s p with
         | Some i => if i_empty i then
                       match clear_all c s f1 f2 with (s1, Done) => (s1, Cleared) | (s1, _) => (s1, Failed) end
                     else (s, Booted)
         | None => (s, Failed)
         end
  else (s, Booted).

(** manifest_manager_flash.c:194-253, manifest_manager_flash_init_state, with the faults of a start. *)
Record boot := Boot { b_v1 : vfaults; b_v2 : vfaults; b_empty : bool; b_f1 : faults; b_f2 : faults }.
Definition init (m : image) (active : region) (b : boot) : image * option (mgr * started) :=
  let s := Mgr m (fun _ => false) (fun _ => 0%nat) (fun q => upd_init (r_base c q) (r_size c)) (fun _ => None) None active [] None in
  match verify_region s false (b_v1 b) with
  | None => (m, None)
  | Some s =>
    match verify_region s true (b_v2 b) with
    | None => (m, None)
    | Some s =>
      let s := fst (check_pending_id s) in                    (* 223-226: MANIFEST_MANAGER_INVALID_ID is the only error *)
      match check_pending_platform c s with
      | (_, BadManifest) => (m, None)
      | (s, _) =>
        match check_empty s (b_empty b) (b_f1 b) (b_f2 b) with
        | (s, Failed) => (m_flash s, None)
        | (s, x) => (m_flash s, Some (s, x))
        end
      end
    end
  end.

Inductive op :=
| GetStart (active : bool)               (* get_manifest_region up to the unlock *)
| GetEnd (k : nat)                       (* the return of the k-th call that is in progress *)
| Free (r : region)
| Activate
| ClearStart (size : N)                  (* clear_pending_region up to the unlock *)
| ClearEnd (f : faults)                  (* the rest *)
| Write (data : list N) (f : faults)
| Verify (v : vfaults) (post : bool)     (* [post]: post_verify succeeds *)
| ClearAll (f1 f2 : faults).

(** manifest_manager_flash.c:298-312 *)
Definition get_start (s : mgr) (active : bool) : mgr :=
  let r := get_region s active in
  Mgr (m_flash s) (m_valid s) (if m_valid s r then set (m_ref s) r (S (m_ref s r)) else m_ref s) (m_upd s) (m_info s) (m_updating s)
      (m_active s) (m_getting s ++ [(r, m_valid s r)]) (m_clearing s).

(** manifest_manager_flash.c:314: the validity is read again. *)
Definition get_end (s : mgr) (k : nat) : mgr * answer :=
  match nth_error (m_getting s) k with
  | None => (s, Nothing)
  | Some (r, _) =>
    (Mgr (m_flash s) (m_valid s) (m_ref s) (m_upd s) (m_info s) (m_updating s) (m_active s)
         (firstn k (m_getting s) ++ skipn (S k) (m_getting s)) (m_clearing s),
     if m_valid s r then Manifest r else NoManifest)
  end.

(** manifest_manager_flash.c:335-357 *)
Definition free (s : mgr) (r : region) : mgr :=
  Mgr (m_flash s) (m_valid s) (set (m_ref s) r (pred (m_ref s r))) (m_upd s) (m_info s) (m_updating s) (m_active s) (m_getting s) (m_clearing s).

(** manifest_manager_flash.c:367-402; state_manager.c:559-587 *)
Definition activate (s : mgr) : mgr * answer :=
  let p := negb (m_active s) in
  if m_valid s p then
    (Mgr (m_flash s) (set (m_valid s) (m_active s) false) (m_ref s) (m_upd s) (m_info s) (m_updating s) p (m_getting s) (m_clearing s), Done)
  else (s, NonePending).

(** manifest_manager_flash.c:412-440 *)
Definition clear_start (s : mgr) (size : N) : mgr * answer :=
  let r := get_region s false in
  if (m_ref s r =? 0)%nat then
    match upd_check_size (m_upd s r) size with
    | UOk =>
      (Mgr (m_flash s) (set (m_valid s) r false) (m_ref s) (m_upd s) (m_info s) (Some r) (m_active s) (m_getting s) (Some size), Nothing)
    | _ => (s, TooLarge)
    end
  else (s, InUse).

(** manifest_manager_flash.c:442: [updating] is read again. *)
Definition clear_end (s : mgr) (f : faults) : mgr * answer :=
  match m_clearing s, m_updating s with
  | None, _ => (s, Nothing)
  | Some size, None =>
    (Mgr (m_flash s) (m_valid s) (m_ref s) (m_upd s) (m_info s) None (m_active s) (m_getting s) None, FlashError)
  | Some size, Some r =>
    let '(u, m, x) := prepare_erase_all (f_read f) (f_erase f) (r_blk c) (m_upd s r) (m_flash s) size in
    (Mgr m (m_valid s) (m_ref s) (set (m_upd s) r u) (m_info s) (Some r) (m_active s) (m_getting s) None,
     match x with UOk => Done | _ => FlashError end)
  end.

(** manifest_manager_flash.c:454-466 *)
Definition write (s : mgr) (data : list N) (f : faults) : mgr * answer :=
  match m_updating s with
  | None => (s, NotCleared)
  | Some r =>
    let '(u, m, x) := upd_write (f_write f) (m_upd s r) (m_flash s) data in
    (Mgr m (m_valid s) (m_ref s) (set (m_upd s) r u) (m_info s) (Some r) (m_active s) (m_getting s) (m_clearing s),
     match x with UOk => Done | UOutOfSpace => TooLarge | _ => FlashError end)
  end.

(** manifest_manager_flash.c:476-529 *)
Definition verify_pending (s : mgr) (v : vfaults) (post : bool) : mgr * answer :=
  let r := get_region s false in
  let '(s, x) :=
    if (match m_updating s with Some q => (0 <? remaining_bytes (m_upd s q))%Z | None => false end) then (s, Incomplete)
    else if m_valid s r then (s, HasPending)
    else
      match m_updating s with
      | None => (s, NonePending)
      | Some _ =>
        let with_info ok i := Mgr (m_flash s) (set (m_valid s) r ok) (m_ref s) (m_upd s) (set (m_info s) r i) (m_updating s) (m_active s)
                                  (m_getting s) (m_clearing s) in
        match verify v (contents c (m_flash s) r) with
        | Good i =>
          match check_pending_id (with_info true (Some i)) with
          | (s, Done) =>
            match check_pending_platform c s with
            | (s, Done) => (s, if post then Done else PostFailed)
            | p => p
            end
          | p => p
          end
        | _ => (with_info false None, BadManifest)
        end
      end in
  (with_updating s None, x).

Definition step (s : mgr) (o : op) : mgr * answer :=
  match o with
  | GetStart a => (get_start s a, Nothing)
  | GetEnd k => get_end s k
  | Free r => (free s r, Nothing)
  | Activate => activate s
  | ClearStart n => clear_start s n
  | ClearEnd f => clear_end s f
  | Write d f => write s d f
  | Verify v p => verify_pending s v p
  | ClearAll f1 f2 => clear_all c s f1 f2
  end.

Fixpoint run (s : mgr) (l : list op) : mgr * list answer :=
  match l with
  | [] => (s, [])
  | o :: q => let '(s1, a) := step s o in let '(s2, b) := run s1 q in (s2, a :: b)
  end.

(** The device: the manager, or only the flash if initialisation failed, and the active region as it was last written to
    flash (state_manager.c:403-490, state_manager_store_non_volatile_state). *)
Inductive sys := Up (s : mgr) (stored : region) | Down (m : image) (stored : region).
Inductive sop := Call (o : op) | Store | Reboot (b : boot).
Inductive sanswer := Answer (a : answer) | Start (x : started) | NoAnswer.

Definition sflash (y : sys) : image := match y with Up s _ => m_flash s | Down m _ => m end.
Definition sstored (y : sys) : region := match y with Up _ r | Down _ r => r end.

Definition sstep (y : sys) (o : sop) : sys * sanswer :=
  match o with
  | Call o => match y with Up s r => let '(s1, a) := step s o in (Up s1 r, Answer a) | _ => (y, NoAnswer) end
  | Store => match y with Up s _ => (Up s (m_active s), NoAnswer) | _ => (y, NoAnswer) end
  | Reboot b =>
    match init (sflash y) (sstored y) b with
    | (m, None) => (Down m (sstored y), Start Failed)
    | (_, Some (s, x)) => (Up s (sstored y), Start x)
    end
  end.

Fixpoint srun (y : sys) (l : list sop) : sys * list sanswer :=
  match l with
  | [] => (y, [])
  | o :: q => let '(y1, a) := sstep y o in let '(y2, b) := srun y1 q in (y2, a :: b)
  end.
End Manager.
