(** Model of core/firmware/firmware_update.c, with the boot-time calls of core/firmware/firmware_update_handler.c,
    core/firmware/firmware_update_handler_revoke_after_reset.c and core/firmware/restore_active_handler.c.

    All regions lie on one flash memory (regions on several devices are parts of it), with one block and one page size.
    Flash functions are those of FlashUtil_Model and FlashUpdater_Model.  What happens outside the module in a call is
    decided by an oracle: whether the call fails, and the device faults during it.  A flash operation that fails or is
    interrupted may leave anything in the blocks it worked on.  A power loss is an oracle for which every call fails from
    then on, followed by a boot.

    The format of firmware images is a parameter: what [load], [verify] and the queries report about the image at an
    address.  The device keeps the lowest manifest ID that is still allowed; an image with a lower one does not verify.

    Simplifications: NULL-pointer checks, logging and status notifications are dropped; 32-bit address arithmetic is
    exact, i.e. regions end inside the address space; the finalize hook of a platform only changes the bytes in front of
    the image. *)
From Coq Require Import List NArith ZArith Bool Arith.
From Verif Require Import Base Flash_Base FlashUtil_Model FlashUpdater_Model.
Import ListNotations.
Local Open Scope N_scope.

(** firmware_image.h: what the queries report after a successful load.  A missing size, header or manifest is an error
    or NULL; a header may have no recovery revision. *)
Record fwinfo := FwInfo {
  i_size : option nat;
  i_valid : bool;                 (* signatures and contents verify *)
  i_header : option (option Z);   (* firmware header, and the recovery revision in it *)
  i_manifest : option N           (* ID of the key manifest *)
}.

(** What the outside does in one call. *)
Record env := Env {
  e_ok : bool;                    (* calls other than flash accesses: success *)
  e_done : bool;                  (* a revocation that reports a failure was done anyway *)
  e_read : N -> bool; e_erase : N -> bool; e_write : N -> option nat;
  e_torn : option image           (* what a failed flash operation leaves *)
}.

(** firmware_update.h:20-36, struct firmware_flash_map, the variant of the updater and the platform. *)
Record fcfg := FCfg {
  c_active : N; c_staging : N; c_backup : option N; c_recovery : option N; c_rec_backup : option N;
  c_size : N;                     (* size of the staging region *)
  c_off : N;                      (* image offset *)
  c_blk : N; c_page : N;
  c_no_header : bool; c_need_digest : bool;
  c_rollback : bool; c_min_rev : Z;
  c_live : bool;                  (* a key manifest describes the image loaded last *)
  c_page_fails : bool             (* asking a flash for its page size may fail *)
}.

(** firmware_update.h:52-68, struct firmware_update_state, with the memory, the loaded image, the revocation state of the
    device and the number of calls made so far. *)
Record fst_ := FState {
  s_mem : image; s_fw : option fwinfo; s_rev : N; s_tick : nat;
  s_bad : bool; s_rrev : Z; s_upd : updater;
  s_digest : option (nat * list N); s_len : N; s_applied : nat
}.

Inductive ferr :=
| EIncomplete | EExtra | EDigest | ERollback | ENoHeader | ENoManifest | ENotAuthorized
| ELoad | EVerify | EBoot | ESize | EHeader | EHash | EFlash (r : futil) | EUpdater (r : ustatus) | EPage | EFinalize
| EVeto | ESave | ERevokeCheck | ERevoke | ENoRecovery | ENotNeeded | EArgument.

Inductive res (A : Type) := Ok (a : A) | Err (e : ferr).
Arguments Ok {A}. Arguments Err {A}.

Definition M (A : Type) := fst_ -> fst_ * res A.
Definition ret {A} (a : A) : M A := fun s => (s, Ok a).
Definition fail {A} (e : ferr) : M A := fun s => (s, Err e).
Definition bind {A B} (f : M A) (g : A -> M B) : M B :=
  fun s => match f s with (s', Ok a) => g a s' | (s', Err e) => (s', Err e) end.
(** Runs [f] and hands its result on whatever it is. *)
Definition try_ {A B} (f : M A) (g : res A -> M B) : M B := fun s => let '(s', r) := f s in g r s'.
Notation "x <- f ;; g" := (bind f (fun x => g)) (at level 61, f at next level, right associativity).
Notation "f ;;; g" := (bind f (fun _ => g)) (at level 61, right associativity).
Definition get {A} (f : fst_ -> A) : M A := fun s => (s, Ok (f s)).

Definition set_mem (m : image) : M unit :=
  fun s => (FState m (s_fw s) (s_rev s) (s_tick s) (s_bad s) (s_rrev s) (s_upd s) (s_digest s) (s_len s) (s_applied s), Ok tt).
Definition set_fw (i : option fwinfo) : M unit :=
  fun s => (FState (s_mem s) i (s_rev s) (s_tick s) (s_bad s) (s_rrev s) (s_upd s) (s_digest s) (s_len s) (s_applied s), Ok tt).
Definition set_rev (r : N) : M unit :=
  fun s => (FState (s_mem s) (s_fw s) r (s_tick s) (s_bad s) (s_rrev s) (s_upd s) (s_digest s) (s_len s) (s_applied s), Ok tt).
Definition set_bad (b : bool) : M unit :=
  fun s => (FState (s_mem s) (s_fw s) (s_rev s) (s_tick s) b (s_rrev s) (s_upd s) (s_digest s) (s_len s) (s_applied s), Ok tt).
Definition set_rrev (z : Z) : M unit :=
  fun s => (FState (s_mem s) (s_fw s) (s_rev s) (s_tick s) (s_bad s) z (s_upd s) (s_digest s) (s_len s) (s_applied s), Ok tt).
Definition set_upd (u : updater) : M unit :=
  fun s => (FState (s_mem s) (s_fw s) (s_rev s) (s_tick s) (s_bad s) (s_rrev s) u (s_digest s) (s_len s) (s_applied s), Ok tt).
Definition set_digest (d : option (nat * list N)) : M unit :=
  fun s => (FState (s_mem s) (s_fw s) (s_rev s) (s_tick s) (s_bad s) (s_rrev s) (s_upd s) d (s_len s) (s_applied s), Ok tt).
Definition set_len (n : N) : M unit :=
  fun s => (FState (s_mem s) (s_fw s) (s_rev s) (s_tick s) (s_bad s) (s_rrev s) (s_upd s) (s_digest s) n (s_applied s), Ok tt).
Definition applied : M unit :=
  fun s => (FState (s_mem s) (s_fw s) (s_rev s) (s_tick s) (s_bad s) (s_rrev s) (s_upd s) (s_digest s) (s_len s) (S (s_applied s)), Ok tt).

(** The bytes of the blocks that contain [a, a+len). *)
Definition touched (blk a len x : N) : bool :=
  (0 <? len) && (a / blk <=? x / blk) && (x / blk <=? (a + len - 1) / blk).

(** What is in flash after an operation on the blocks of [a, a+len). *)
Definition settle (e : env) (blk a len : N) (m : image) (r : futil) : image :=
  match r, e_torn e with
  | FuOk, _ | _, None => m
  | _, Some g => fun x => if touched blk a len x then g x mod 256 else m x
  end.

Section Update.
Variable fmt : image -> N -> option fwinfo.     (* the image at an address of a flash *)
Variable hash : nat -> list N -> list N.
Variable c : fcfg.
Variable oracle : nat -> env.

(** Every outside call takes the next behaviour of the outside. *)
Definition ask : M env :=
  fun s => (FState (s_mem s) (s_fw s) (s_rev s) (S (s_tick s)) (s_bad s) (s_rrev s) (s_upd s) (s_digest s) (s_len s) (s_applied s),
            Ok (oracle (s_tick s))).

Definition call (x : ferr) : M unit := e <- ask ;; if e_ok e then ret tt else fail x.

(** firmware_image.load *)
Definition load (a : N) : M unit :=
  e <- ask ;; m <- get s_mem ;;
  match (if e_ok e then fmt m a else None) with
  | Some i => set_fw (Some i)
  | None => set_fw None ;;; fail ELoad
  end.

(** Whether an image may be used while manifests below [rev] are revoked. *)
Definition allowed (rev : N) (i : fwinfo) : bool :=
  i_valid i && match i_manifest i with Some k => rev <=? k | None => true end.

(** firmware_image.verify *)
Definition verify : M unit :=
  e <- ask ;; f <- get s_fw ;; rev <- get s_rev ;;
  match f with
  | Some i => if e_ok e && allowed rev i then ret tt else fail EVerify
  | None => fail EVerify
  end.

(** firmware_image.get_image_size *)
Definition image_size : M nat :=
  e <- ask ;; f <- get s_fw ;;
  match f with
  | Some i => match i_size i with Some n => if e_ok e then ret n else fail ESize | None => fail ESize end
  | None => fail ESize
  end.

(** firmware_image.get_firmware_header *)
Definition header : M (option (option Z)) :=
  f <- get s_fw ;; ret (match f with Some i => i_header i | None => None end).

(** flash_erase_region_and_verify *)
Definition erase (a : N) (len : nat) : M unit :=
  e <- ask ;; m <- get s_mem ;;
  let '(m', r) := erase_and_verify (e_read e) (e_erase e) (c_blk c) m a len in
  set_mem (settle e (c_blk c) a (N.of_nat len) m' r) ;;;
  match r with FuOk => ret tt | _ => fail (EFlash r) end.

(** flash_copy_ext_to_blank_and_verify *)
Definition copy_blank (dest src : N) (len : nat) : M unit :=
  e <- ask ;; m <- get s_mem ;;
  let '(m', r) := copy_region (e_read e) (e_erase e) (e_write e) (Some m) m dest src len false (c_blk c) (c_blk c) (c_page c) true in
  set_mem (settle e 1 dest (N.of_nat len) m' r) ;;;
  match r with FuOk => ret tt | _ => fail (EFlash r) end.

(** flash_copy_ext_and_verify *)
Definition copy_over (dest src : N) (len : nat) : M unit :=
  e <- ask ;; m <- get s_mem ;;
  let '(m', r) := copy_region (e_read e) (e_erase e) (e_write e) (Some m) m dest src len true (c_blk c) (c_blk c) (c_page c) true in
  set_mem (settle e (c_blk c) dest (N.of_nat len) m' r) ;;;
  match r with FuOk => ret tt | _ => fail (EFlash r) end.

(** firmware_update.c:320-354: the checks of a received image. *)
Definition check_received (a : N) : M unit :=
  u <- get s_upd ;;
  if (0 <? remaining_bytes u)%Z then fail EIncomplete
  else if (remaining_bytes u <? 0)%Z then fail EExtra
  else
    d <- get s_digest ;;
    match d with
    | None => ret tt
    | Some (ty, want) =>
      e <- ask ;; m <- get s_mem ;; len <- get s_len ;;
      if (len =? 0) || negb (e_ok e) then fail EHash
      else
        match hash_stream (e_read e) (N.to_nat len) m (a + c_off c) (N.to_nat len) with
        | None => fail EHash
        | Some data =>
          if list_eq_dec N.eq_dec (firstn (length want) (hash ty data ++ repeat 0 64)) want then ret tt
          else fail EDigest
        end
    end.

(** firmware_update.c:311-433, firmware_update_load_and_verify_image.  The result is the image size and the recovery
    revision, if there is one. *)
Definition load_and_verify (a : N) (check_bytes boot_image check_rollback want_size want_rev : bool) : M (nat * option Z) :=
  (if check_bytes then check_received a else ret tt) ;;;
  load (a + c_off c) ;;;
  verify ;;;
  (if boot_image then call EBoot else ret tt) ;;;
  n <- (if want_size then image_size else ret 0%nat) ;;
  r <- (if want_rev then
          h <- header ;;
          match h with
          | Some None => fail EHeader
          | Some (Some z) =>
            if check_rollback && c_rollback c && (z <? c_min_rev c)%Z then fail ERollback else ret (Some z)
          | None => if c_no_header c then ret None else fail ENoHeader
          end
        else ret None) ;;
  ret (n, r).

(** firmware_update.c:559-579, firmware_update_program_bootable *)
Definition program_bootable (dest src : N) (len : nat) : M unit :=
  let page := N.to_nat (c_page c) in
  if (page <? len)%nat then
    copy_blank (dest + c_page c) (src + c_page c) (len - page) ;;;
    copy_blank dest src page
  else copy_blank dest src len.

(** firmware_update.c:590-598, firmware_update_finalize_image.  A hook may put anything before the image. *)
Definition finalize (a : N) : M unit :=
  e <- ask ;; m <- get s_mem ;;
  set_mem (match e_torn e with
           | Some g => fun x => if inb x a (c_off c) then g x mod 256 else m x
           | None => m
           end) ;;;
  if e_ok e then ret tt else fail EFinalize.

(** firmware_update.c:657-713: from the erase on, with the attempt to put a backup (its address and length) back. *)
Definition replace_image (dest src : N) (len : nat) (backup : option (N * nat)) : fst_ -> fst_ * (res unit * bool) :=
  fun s =>
  match (erase dest (len + N.to_nat (c_off c)) ;;; ret tt) s with
  | (s1, Err e) => (s1, (Err e, false))
  | (s1, Ok _) =>
    match (program_bootable (dest + c_off c) (src + c_off c) len ;;; finalize dest) s1 with
    | (s2, Ok _) => (s2, (Ok tt, true))
    | (s2, Err e) =>
      match backup with
      | None => (s2, (Err e, false))
      | Some (b, blen) =>
        match (erase dest (blen + N.to_nat (c_off c)) ;;;
               program_bootable (dest + c_off c) (b + c_off c) blen ;;; finalize dest) s2 with
        | (s3, Ok _) => (s3, (Err e, true))
        | (s3, Err _) => (s3, (Err e, false))
        end
      end
    end
  end.

(** firmware_update.c:669-674 *)
Definition query_page : M unit := if c_page_fails c then call EPage else ret tt.

(** firmware_update.c:625-720, firmware_update_write_image: the status, and whether the image in the region is good. *)
Definition write_image (dest : N) (backup : option N) (src : N) (len : nat) : fst_ -> fst_ * (res unit * bool) :=
  fun s =>
  match (match backup with
         | None => ret 0%nat
         | Some b =>
           load (dest + c_off c) ;;;
           n <- image_size ;;
           copy_over (b + c_off c) (dest + c_off c) n ;;;
           ret n
         end) s with
  | (s1, Err e) => (s1, (Err e, true))
  | (s1, Ok blen) =>
    match query_page s1 with
    | (s2, Err e) => (s2, (Err e, true))
    | (s2, Ok _) => replace_image dest src len (match backup with Some b => Some (b, blen) | None => None end) s2
    end
  end.

(** firmware_update.c:735-753, firmware_update_restore_image *)
Definition restore_image (dest src : N) (want_rev : bool) : M (option Z) :=
  v <- load_and_verify src false false false true want_rev ;;
  fun s => match write_image dest None src (fst v) s with
           | (s', (Ok _, _)) => (s', Ok (snd v))
           | (s', (Err e, _)) => (s', Err e)
           end.

(** firmware_update.c:764-799, firmware_update_restore_recovery_image *)
Definition restore_recovery : M unit :=
  match c_recovery c with
  | None => fail ENoRecovery
  | Some r =>
    bad <- get s_bad ;;
    if bad then
      z <- restore_image r (c_active c) true ;;
      set_bad false ;;;
      set_rrev (match z with Some x => x | None => -1 end)
    else fail ENotNeeded
  end.

(** firmware_update.c:811-837, firmware_update_restore_active_image *)
Definition restore_active : M unit :=
  match c_recovery c with
  | None => fail ENoRecovery
  | Some r => restore_image (c_active c) r false ;;; ret tt
  end.

(** firmware_update.c:854-923, firmware_update_recovery_matches_active_image.  The result is true for a match. *)
Definition recovery_matches : M bool :=
  match c_recovery c with
  | None => ret true
  | Some r =>
    load (c_active c + c_off c) ;;;
    n <- image_size ;;
    h <- header ;;
    (match h with Some None => fail EHeader | _ => ret tt end) ;;;
    load (r + c_off c) ;;;
    k <- image_size ;;
    if negb (n =? k)%nat then ret false
    else
      e <- ask ;; m <- get s_mem ;;
      match verify_copy (e_read e) m (c_active c + c_off c) m (r + c_off c) n with
      | FuOk =>
        set_bad false ;;;
        (match h with Some (Some z) => set_rrev z | _ => ret tt end) ;;;
        ret true
      | FuMismatch => ret false
      | x => fail (EFlash x)
      end
  end.

(** firmware_update.c:448-466, firmware_update_validate_recovery_image *)
Definition validate_recovery : M unit :=
  match c_recovery c with
  | None => ret tt
  | Some r =>
    try_ (load_and_verify r false true false false true) (fun v =>
      match v with
      | Ok (_, z) => (match z with Some x => set_rrev x | None => ret tt end) ;;; set_bad false
      | Err _ => set_bad true
      end)
  end.

(** firmware_update.c:538-544, firmware_update_clear_image_digest *)
Definition clear_digest : M unit := set_digest None ;;; set_len 0.

(** firmware_update.c:1016-1069, firmware_update_apply_update.  The result says whether the recovery image was updated. *)
Definition apply_update (len : nat) : M bool :=
  call EVeto ;;;
  call ESave ;;;
  bad <- get s_bad ;;
  up <- (match c_recovery c with
         | Some r =>
           if bad then
             (fun s => match write_image r None (c_staging c) len s with
                       | (s', (Ok _, good)) => (set_bad (negb good) ;;; ret true) s'
                       | (s', (Err e, _)) => (s', Err e)
                       end)
           else ret false
         | None => ret false
         end) ;;
  (fun s => match write_image (c_active c) (c_backup c) (c_staging c) len s with
            | (s', (Ok _, _)) => (clear_digest ;;; ret tt) s'
            | (s', (Err e, _)) => (s', Err e)
            end) ;;;
  ret up.

(** key_manifest.update_revocation with the manifest of an image *)
Definition revoke (i : option fwinfo) : M unit :=
  e <- ask ;; rev <- get s_rev ;;
  let new := match i with Some f => match i_manifest f with Some k => N.max rev k | None => rev end | None => rev end in
  if e_ok e then set_rev new
  else (if e_done e then set_rev new else ret tt) ;;; fail ERevoke.

(** firmware_update.c:1118-1129: where the recovery image is backed up. *)
Definition recovery_backup (bad : bool) : option N :=
  if bad then None else match c_rec_backup c with Some b => Some b | None => c_backup c end.

(** firmware_update.c:1089-1161, firmware_update_process_manifest_revocation.  The manifest reported by the image is used
    again after the recovery image may have been loaded for its backup. *)
Definition process_revocation (src : N) (len : nat) (new_rev : Z) (updated : bool) : M unit :=
  f <- get s_fw ;;
  match (match f with Some i => i_manifest i | None => None end) with
  | None => fail ENoManifest
  | Some k =>
    call ERevokeCheck ;;;
    rev <- get s_rev ;; bad <- get s_bad ;; rrev <- get s_rrev ;;
    let revoked := rev <? k in
    if revoked || bad || negb (rrev =? new_rev)%Z then
      (match c_recovery c with
       | Some r =>
         if updated then ret tt
         else fun s => match write_image r (recovery_backup bad) src len s with
                       | (s', (Ok _, good)) => set_bad (negb good) s'
                       | (s', (Err e, good)) => (set_bad (negb good) ;;; fail e) s'
                       end
       | None => ret tt
       end) ;;;
      set_rrev new_rev ;;;
      (if revoked then
         now <- get s_fw ;;
         revoke (if c_live c then now else f)
       else ret tt)
    else ret tt
  end.

(** firmware_update.c:1180-1235, firmware_update_run_update *)
Definition run_update : M unit :=
  z0 <- get s_rrev ;;
  v <- load_and_verify (c_staging c) true false true true true ;;
  let new_rev := match snd v with Some z => z | None => z0 end in
  up <- apply_update (fst v) ;;
  load (c_active c + c_off c) ;;;
  process_revocation (c_staging c) (fst v) new_rev up ;;;
  applied.

(** firmware_update.c:1259-1304, firmware_update_run_update_no_revocation *)
Definition run_update_no_revocation : M unit :=
  bad <- get s_bad ;;
  (match c_recovery c with Some _ => if bad then restore_recovery else ret tt | None => ret tt end) ;;;
  v <- load_and_verify (c_staging c) true false true true true ;;
  apply_update (fst v) ;;;
  applied.

(** firmware_update.c:1325-1355, firmware_update_run_revocation *)
Definition run_revocation : M unit :=
  z0 <- get s_rrev ;;
  v <- load_and_verify (c_active c) false false false true true ;;
  process_revocation (c_active c) (fst v) (match snd v with Some z => z | None => z0 end) false.

(** firmware_update.c:1371-1404, firmware_update_prepare_staging *)
Definition prepare_staging (size : N) : M unit :=
  call EVeto ;;;
  e <- ask ;; u <- get s_upd ;; m <- get s_mem ;;
  let '(u', m', r) := prepare_for_update (e_read e) (e_erase e) (c_blk c) u m size in
  set_mem (settle e (c_blk c) (u_base u) (if u_max u <? size then 0 else size) m' (match r with UFlash x => x | _ => FuOk end)) ;;;
  set_upd u' ;;;
  clear_digest ;;;
  set_len size ;;;
  match r with UOk => ret tt | _ => fail (EUpdater r) end.

(** firmware_update.c:1418-1443, firmware_update_write_to_staging *)
Definition write_staging (data : list N) : M unit :=
  d <- get s_digest ;;
  if c_need_digest c && match d with None => true | Some _ => false end then fail ENotAuthorized
  else
    e <- ask ;; u <- get s_upd ;; m <- get s_mem ;;
    let '(u', m', r) := upd_write (e_write e) u m data in
    set_mem m' ;;; set_upd u' ;;;
    match r with UOk => ret tt | _ => fail (EUpdater r) end.

(** firmware_update.c:502-531, firmware_update_set_image_digest, for a supported hash type *)
Definition set_image_digest (ty : nat) (d : list N) : M unit :=
  n <- get s_len ;;
  if (length d =? 0)%nat || (64 <? length d)%nat || (n =? 0) then fail EArgument
  else set_digest (Some (ty, d)).

(** firmware_update.c:167-205 and 228-234: the state of a new updater. *)
Definition new_updater : updater := upd_apply_offset (upd_init (c_staging c) (c_size c)) (c_off c).

Definition start : M unit :=
  fun s => (FState (s_mem s) None (s_rev s) (s_tick s) false (-1) new_updater None 0 (s_applied s), Ok tt).

(** firmware_update_handler.c:161-193, firmware_update_handler_prepare_for_updates *)
Definition prepare_for_updates (recovery_boot force skip : bool) : M unit :=
  if recovery_boot then
    set_bad false ;;;
    (if skip then ret tt else try_ restore_active (fun _ => ret tt))
  else
    bad <- get s_bad ;;
    if bad then ret tt
    else if force then
      try_ recovery_matches (fun r => match r with Ok true => ret tt | _ => set_bad true end)
    else validate_recovery.

(** firmware_update_handler.c:195-206 and firmware_update_handler_revoke_after_reset.c:13-30 *)
Definition handler_prepare (recovery_boot force skip revoke_after : bool) : M unit :=
  prepare_for_updates recovery_boot force skip ;;;
  (if recovery_boot then ret tt
   else try_ (if revoke_after then run_revocation else restore_recovery) (fun _ => ret tt)).

(** restore_active_handler.c:12-31 *)
Definition restore_active_request : M unit :=
  try_ recovery_matches (fun r => match r with Ok true => ret tt | _ => try_ restore_active (fun _ => ret tt) end).

(** The requests an updater serves.  A boot starts from the active image if that is usable and from the recovery image
    otherwise, which the boot loader decides. *)
Inductive fop :=
| Boot (force skip revoke_after : bool)
| Prepare (size : N) | SetDigest (ty : nat) (d : list N) | Write (data : list N)
| RunUpdate | RunUpdateNoRevocation | RunRevocation
| RestoreRecovery | RestoreActive | CheckRecovery | Matches
| SetRevision (z : Z).

Definition usable (m : image) (rev : N) (a : N) : bool :=
  match fmt m (a + c_off c) with
  | Some i => allowed rev i
  | None => false
  end.

Definition step (s : fst_) (o : fop) : fst_ * res unit :=
  match o with
  | Boot force skip rv =>
    (start ;;; handler_prepare (negb (usable (s_mem s) (s_rev s) (c_active c))) force skip rv) s
  | Prepare n => prepare_staging n s
  | SetDigest ty d => set_image_digest ty d s
  | Write d => write_staging d s
  | RunUpdate => run_update s
  | RunUpdateNoRevocation => run_update_no_revocation s
  | RunRevocation => run_revocation s
  | RestoreRecovery => restore_recovery s
  | RestoreActive => restore_active_request s
  | CheckRecovery => validate_recovery s
  | Matches => (recovery_matches ;;; ret tt) s
  | SetRevision z => set_rrev z s
  end.

Fixpoint run (s : fst_) (l : list fop) : fst_ :=
  match l with [] => s | o :: r => run (fst (step s o)) r end.

End Update.
