(** What the firmware update theorems talk about: images that may run, the flash layout of a device, and which image a
    region holds.  Nothing here refers to the updater's functions. *)
From Coq Require Import List NArith ZArith Bool.
From Verif Require Import Base Flash_Base FlashUpdater_Model FwUpdate_Model.
Import ListNotations.
Local Open Scope N_scope.

(** What is assumed of an image format: a valid image has a size, what is reported about an image depends only on the
    bytes of the image, and images fit their regions behind the offset. *)
Definition image_format (fmt : image -> N -> option fwinfo) (room : N) : Prop :=
  (forall m a i, fmt m a = Some i -> i_valid i = true -> exists n, i_size i = Some n) /\
  (forall m a i n m' a', fmt m a = Some i -> i_size i = Some n ->
     img_read m' a' n = img_read m a n -> fmt m' a' = Some i) /\
  (forall m a i n, fmt m a = Some i -> i_size i = Some n -> N.of_nat n <= room).

(** Two regions do not overlap. *)
Definition apart (size a b : N) : Prop := a + size <= b \/ b + size <= a.

(** The regions are whole erase blocks inside the address space.  The active, staging and recovery region and the
    regions for backups do not overlap (one region may serve both backups). *)
Definition layout (c : fcfg) : Prop :=
  let aligned a := a mod c_blk c = 0 /\ a + c_size c < 2 ^ 32 in
  0 < c_blk c /\ 0 < c_page c /\ c_size c mod c_blk c = 0 /\ c_off c <= c_size c /\
  aligned (c_active c) /\ aligned (c_staging c) /\ apart (c_size c) (c_active c) (c_staging c) /\
  (forall b, c_backup c = Some b \/ c_rec_backup c = Some b \/ c_recovery c = Some b ->
     aligned b /\ apart (c_size c) b (c_active c) /\ apart (c_size c) b (c_staging c)) /\
  (forall r b, c_recovery c = Some r -> c_backup c = Some b \/ c_rec_backup c = Some b -> apart (c_size c) r b).

(** The image in the region at [a] may run: it is complete and valid and its manifest is not revoked. *)
Definition good (fmt : image -> N -> option fwinfo) (c : fcfg) (m : image) (rev a : N) : Prop :=
  exists i, fmt m (a + c_off c) = Some i /\ i_valid i = true /\ (forall k, i_manifest i = Some k -> rev <= k).

(** The bytes of an image of [n] bytes in the region at [a]. *)
Definition holds (c : fcfg) (m : image) (a : N) (n : nat) : list N := img_read m (a + c_off c) n.

(** Nothing outside the regions at [l] differs. *)
Definition only_in (size : N) (l : list N) (m m' : image) : Prop :=
  forall x, (forall a, In a l -> ~ (a <= x < a + size)) -> m' x = m x.

(** Addresses that may be present. *)
Definition opt (a : option N) : list N := match a with Some x => [x] | None => [] end.

(** The staged image is acceptable: all announced bytes arrived, its digest matches one that was set, it is valid, not
    revoked and not rolled back. *)
Definition acceptable (fmt : image -> N -> option fwinfo) (hash : nat -> list N -> list N) (c : fcfg) (s : fst_)
  (i : fwinfo) (n : nat) : Prop :=
  let a := c_staging c + c_off c in
  remaining_bytes (s_upd s) = 0%Z /\
  (forall ty d, s_digest s = Some (ty, d) ->
     d = firstn (length d) (hash ty (img_read (s_mem s) a (N.to_nat (s_len s))) ++ repeat 0 64)) /\
  fmt (s_mem s) a = Some i /\ i_size i = Some n /\ i_valid i = true /\
  (forall k, i_manifest i = Some k -> s_rev s <= k) /\
  (match i_header i with
   | Some (Some z) => c_rollback c = true -> (c_min_rev c <= z)%Z
   | Some None => False
   | None => c_no_header c = true
   end).

(** The recovery revision after an update from that image. *)
Definition revision_of (s : fst_) (i : fwinfo) : Z :=
  match i_header i with Some (Some z) => z | _ => s_rrev s end.

(** A key manifest stays what it was when it was asked for, or no image is loaded between (which needs a backup). *)
Definition stable_manifest (c : fcfg) : Prop := c_live c = true -> c_backup c = None /\ c_rec_backup c = None.

(** Requests the statements cover.  Lengths fit 32 bits.  A restore of the active image is not requested while the
    recovery image is recorded as bad.  The recovery image is only checked while the active one is usable. *)
Definition fair (fmt : image -> N -> option fwinfo) (c : fcfg) (s : fst_) (o : fop) : Prop :=
  match o with
  | Write d => N.of_nat (length d) + c_size c < 2 ^ 32
  | RestoreActive => s_bad s = false
  | CheckRecovery => good fmt c (s_mem s) (s_rev s) (c_active c)
  | _ => True
  end.

Fixpoint fair_run (fmt : image -> N -> option fwinfo) (hash : nat -> list N -> list N) (c : fcfg) (oracle : nat -> env)
  (s : fst_) (l : list fop) : Prop :=
  match l with
  | [] => True
  | o :: r => fair fmt c s o /\ fair_run fmt hash c oracle (fst (step fmt hash c oracle s o)) r
  end.

(** Outside calls that succeed; a write takes at least a page. *)
Definition works (c : fcfg) (e : env) : Prop :=
  e_ok e = true /\ (forall x, e_read e x = false) /\ (forall x, e_erase e x = false) /\
  (forall x, exists n, e_write e x = Some n /\ (N.to_nat (c_page c) <= n)%nat).

(** A device of which the statements speak: an image format, a flash layout, flash that knows its page size, and manifests
    that are stable. *)
Definition device (fmt : image -> N -> option fwinfo) (c : fcfg) : Prop :=
  image_format fmt (c_size c - c_off c) /\ layout c /\ c_page_fails c = false /\ stable_manifest c.

(** There is an image to boot. *)
Definition boots (fmt : image -> N -> option fwinfo) (c : fcfg) (m : image) (rev : N) : Prop :=
  good fmt c m rev (c_active c) \/ exists r, c_recovery c = Some r /\ good fmt c m rev r.

(** A state some history of requests leads to, with any outside behaviour, from a boot with a good image. *)
Definition reached (fmt : image -> N -> option fwinfo) (hash : nat -> list N -> list N) (c : fcfg) (oracle : nat -> env)
  (s : fst_) : Prop :=
  exists s0 force skip rv l, bytes_img (s_mem s0) /\ (c_recovery c <> None -> boots fmt c (s_mem s0) (s_rev s0)) /\
    fair_run fmt hash c oracle s0 (Boot force skip rv :: l) /\ s = run fmt hash c oracle s0 (Boot force skip rv :: l).

(** Every request of the list succeeds. *)
Fixpoint all_succeed (fmt : image -> N -> option fwinfo) (hash : nat -> list N -> list N) (c : fcfg) (oracle : nat -> env)
  (s : fst_) (l : list fop) (s' : fst_) : Prop :=
  match l with
  | [] => s' = s
  | o :: r => exists s1, step fmt hash c oracle s o = (s1, Ok tt) /\ all_succeed fmt hash c oracle s1 r s'
  end.
