(** C31: the flash updater stays inside its region and keeps the data in order. *)
From Coq Require Import List NArith ZArith Lia Bool Arith.
From Verif Require Import Base Flash_Base FlashUtil_Model FlashUtil_Proofs FlashUpdater_Model
  FlashUpdater_Proofs.
Import ListNotations.
Local Open Scope N_scope.

(** For every sequence of prepare, write and offset calls, with every pattern of device faults, no
    byte changes outside the erase blocks that hold the update region.  The calls are those a client
    can make: buffers fit in the address space and offsets do not exceed the remaining region. *)
Theorem C31_stays_in_region : forall rfail efail wres blk base max m l, 0 < blk ->
  base + max < 2 ^ 32 -> uops_ok rfail efail wres blk (upd_init base max) m l ->
  let '(u', m') := uop_run rfail efail wres blk (upd_init base max, m) l in
  forall x, (forall y, base <= y < base + max -> y / blk <> x / blk) -> m' x = m x.
Proof.
  intros rfail efail wres blk base max m l Hblk Hb Hok.
  pose proof (run_inside rfail efail wres blk Hblk l (upd_init base max) m base max Hb) as R.
  destruct (uop_run rfail efail wres blk (upd_init base max, m) l) as [u' m'].
  apply R; auto. split; cbn; lia.
Qed.
Print Assumptions C31_stays_in_region.

(** For a region made of whole erase blocks this is exactly the region. *)
Theorem C31_aligned_region : forall rfail efail wres blk p n m l, 0 < blk ->
  blk * p + blk * n < 2 ^ 32 -> uops_ok rfail efail wres blk (upd_init (blk * p) (blk * n)) m l ->
  let '(u', m') := uop_run rfail efail wres blk (upd_init (blk * p) (blk * n), m) l in
  forall x, x < blk * p \/ blk * p + blk * n <= x -> m' x = m x.
Proof.
  intros rfail efail wres blk p n m l Hblk Hb Hok.
  pose proof (C31_stays_in_region rfail efail wres blk _ _ m l Hblk Hb Hok) as R.
  destruct (uop_run rfail efail wres blk (upd_init (blk * p) (blk * n), m) l) as [u' m'].
  intros x Hx. apply R. intros y Hy E.
  assert (p <= y / blk) by (apply N.div_le_lower_bound; lia).
  assert (y / blk < p + n) by (apply N.div_lt_upper_bound; lia).
  rewrite E in *.
  pose proof (N.mul_div_le x blk ltac:(lia)). pose proof (N.mul_succ_div_gt x blk ltac:(lia)). nia.
Qed.
Print Assumptions C31_aligned_region.

(** After a successful prepare, a sequence of successful writes that does not exceed the announced
    length leaves exactly the concatenation of the data at the start of the region, the byte counters
    agree, and everything else in the flash is as the preparation left it. *)
Theorem C31_in_order_without_gaps : forall rfail efail wres blk base max m total ds u1 m1 u2 m2,
  0 < blk -> base + max < 2 ^ 32 -> bytes_ok (concat ds) ->
  (forall d, In d ds -> N.of_nat (length d) + max < 2 ^ 32) ->
  prepare_for_update rfail efail blk (upd_init base max) m total = (u1, m1, UOk) ->
  N.of_nat (length (concat ds)) <= total ->
  write_all wres u1 m1 ds = Some (u2, m2) ->
  img_read m2 base (length (concat ds)) = concat ds /\
  (forall x, ~ (base <= x < base + N.of_nat (length (concat ds))) -> m2 x = m1 x) /\
  bytes_written u2 = N.of_nat (length (concat ds)) /\
  remaining_bytes u2 = (Z.of_N total - Z.of_nat (length (concat ds)))%Z.
Proof.
  intros rfail efail wres blk base max m total ds u1 m1 u2 m2 Hblk Hb Hby Hd HP Ht HW.
  unfold prepare_for_update in HP.
  assert (L: total <= max).
  { unfold upd_prepare in HP. cbn [u_max upd_init] in HP. destruct (N.ltb_spec max total); [discriminate|auto]. }
  pose proof (prepare_spec rfail efail blk Hblk (upd_init base max) m total total base max) as P.
  rewrite HP in P. destruct P as (_ & _ & P).
  { split; cbn; lia. } { cbn; lia. }
  destruct (P eq_refl) as (P1 & P2 & P3). cbn [upd_init u_base u_max] in *. subst u1.
  pose proof (fun a b c d e f => write_all_spec wres ds _ m1 u2 m2 total a b c d e f HW) as A.
  cbn [u_base u_max u_off u_size] in A. rewrite N.add_0_r in A.
  destruct A as (A1 & A2 & A3 & A4); auto; try lia.
Qed.
Print Assumptions C31_in_order_without_gaps.

Definition no_fault : N -> bool := fun _ => false.
Definition full_write : N -> option nat := fun _ => Some 1000%nat.

Example C31_example :
  exists u1 m1 u2 m2,
    prepare_for_update no_fault no_fault 64 (upd_init 128 128) (fun _ => 0) 70 = (u1, m1, UOk) /\
    write_all full_write u1 m1 [[1; 2; 3]; []; [4; 5]] = Some (u2, m2) /\
    img_read m2 126 8 = [0; 0; 1; 2; 3; 4; 5; 255].
Proof. do 4 eexists. vm_compute. auto. Qed.

(** The write call only checks the size of the region, not the announced length: data beyond the part
    that was erased is reported as written but does not read back. *)
Theorem C31_write_past_announced_length_refuted :
  exists m total ds u1 m1 u2 m2,
    prepare_for_update no_fault no_fault 64 (upd_init 128 128) m total = (u1, m1, UOk) /\
    write_all full_write u1 m1 ds = Some (u2, m2) /\
    img_read m2 128 (length (concat ds)) <> concat ds.
Proof.
  exists (fun _ => 0), 64, [repeat 7 65]. do 4 eexists. vm_compute. repeat split. discriminate.
Qed.
Print Assumptions C31_write_past_announced_length_refuted.

(** Applying an offset larger than the region is not checked: the updater then accepts writes outside
    the region. *)
Theorem C31_unchecked_offset_refuted :
  exists m l, let '(u', m') := uop_run no_fault no_fault full_write 64 (upd_init 128 128, m) l in
    m' 400 <> m 400.
Proof. exists (fun _ => 255), [UApplyOffset 256; UWrite (repeat 7 64)]. vm_compute. discriminate. Qed.
Print Assumptions C31_unchecked_offset_refuted.
