(** C36: chunked flash operations are exact.  All statements hold for every pattern of device faults. *)
From Coq Require Import List NArith Lia Bool Arith.
From Verif Require Import Base Flash_Base FlashUtil_Model FlashUtil_Proofs FlashUtil_Total_Proofs.
Import ListNotations.
Local Open Scope N_scope.

(** A content check that succeeds has seen every byte match; one that reports a mismatch has found
    one; without read errors it succeeds exactly when every byte matches. *)
Theorem C36_verify_data_exact : forall rfail m a data,
  (verify_data rfail m a data = FuOk -> img_read m a (length data) = data) /\
  (verify_data rfail m a data = FuMismatch -> img_read m a (length data) <> data) /\
  ((forall x, rfail x = false) -> img_read m a (length data) = data -> verify_data rfail m a data = FuOk).
Proof.
  intros rfail m a data.
  pose proof (check_loop_spec rfail (length data) m a (fun i => nth i data 0) 0 (length data) (le_n _)) as C.
  cbn zeta in C. destruct C as (C1 & C2 & _). unfold verify_data, check_region.
  assert (E: (forall k, (k < length data)%nat -> m (a + N.of_nat k) = nth k data 0) <->
             img_read m a (length data) = data).
  { split.
    - intros H. apply nth_ext_len with (d := 0); [apply length_img_read|].
      intros i Hi. rewrite length_img_read in Hi. rewrite nth_img_read by auto. auto.
    - intros H k Hk. rewrite <- H. now rewrite nth_img_read. }
  split; [|split].
  - intros H. apply E. intros k Hk. apply (C1 H k Hk).
  - intros H Q. destruct (C2 H) as (k & Hk & N). apply N. apply (proj2 E); auto.
  - intros NF H. apply no_read_fault_check; auto. intros k Hk. apply (proj2 E); auto.
Qed.
Print Assumptions C36_verify_data_exact.

Theorem C36_blank_and_value_check_exact : forall rfail m a len v,
  (blank_check rfail m a len = FuOk -> blank_on m a (N.of_nat len)) /\
  ((forall x, rfail x = false) -> blank_on m a (N.of_nat len) -> blank_check rfail m a len = FuOk) /\
  (value_check rfail m a len v = FuOk -> forall x, a <= x < a + N.of_nat len -> m x = v) /\
  ((forall x, rfail x = false) -> (forall x, a <= x < a + N.of_nat len -> m x = v) ->
     value_check rfail m a len v = FuOk).
Proof.
  intros rfail m a len v. unfold blank_check, value_check, check_region.
  pose proof (check_loop_spec rfail len m a (fun _ => 255) 0 len (le_n _)) as C.
  pose proof (check_loop_spec rfail len m a (fun _ => v) 0 len (le_n _)) as D.
  cbn zeta in C, D. destruct C as (C1 & _), D as (D1 & _).
  split; [|split; [|split]].
  - intros H x Hx. replace x with (a + N.of_nat (N.to_nat (x - a))) by lia. apply C1; [|lia].
    destruct (check_loop rfail len m a (fun _ => 255) 0 len); congruence.
  - intros NF H. rewrite no_read_fault_check; auto. intros k Hk. apply H. lia.
  - intros H x Hx. replace x with (a + N.of_nat (N.to_nat (x - a))) by lia. apply D1; [auto|lia].
  - intros NF H. rewrite no_read_fault_check; auto. intros k Hk. apply H. lia.
Qed.
Print Assumptions C36_blank_and_value_check_exact.

Theorem C36_verify_copy_exact : forall rfail m1 a1 m2 a2 len,
  (verify_copy rfail m1 a1 m2 a2 len = FuOk -> img_read m1 a1 len = img_read m2 a2 len) /\
  ((forall x, rfail x = false) -> img_read m1 a1 len = img_read m2 a2 len ->
     verify_copy rfail m1 a1 m2 a2 len = FuOk).
Proof.
  intros rfail m1 a1 m2 a2 len.
  pose proof (verify_copy_loop_spec rfail len m1 a1 m2 a2 len (le_n _)) as C.
  cbn zeta in C. destruct C as (C1 & C2). unfold verify_copy. split.
  - intros H. apply img_read_ext. intros i Hi. auto.
  - intros NF H. apply C2; auto. intros k Hk.
    rewrite <- (nth_img_read m1 a1 len k 0 Hk), <- (nth_img_read m2 a2 len k 0 Hk). now rewrite H.
Qed.
Print Assumptions C36_verify_copy_exact.

(** Erasing a region clears every block that holds a byte of the region and no other block. *)
Theorem C36_erase_exact : forall efail blk m a len, 0 < blk ->
  let '(m', r) := erase_region efail blk m a len in
  (r = FuOk -> forall x y, a <= y < a + N.of_nat len -> y / blk = x / blk -> m' x = 255) /\
  (forall x, (forall y, a <= y < a + N.of_nat len -> y / blk <> x / blk) -> m' x = m x).
Proof.
  intros efail blk m a len H. pose proof (erase_region_spec efail blk m a len H) as E.
  destruct (erase_region efail blk m a len) as [m' r]. tauto.
Qed.
Print Assumptions C36_erase_exact.

(** Program and verify: on success the region holds the data; whatever the result, nothing outside the
    affected erase blocks (or outside the region, for the variant that does not erase) changes. *)
Theorem C36_program_and_verify : forall rfail efail wres blk m a data,
  (match blk with Some b => 0 < b | None => True end) ->
  let '(m', r) := program_and_verify rfail efail wres blk m a data in
  (r = FuOk -> img_read m' a (length data) = data) /\
  (forall x, (match blk with
              | Some b => forall y, a <= y < a + N.of_nat (length data) -> y / b <> x / b
              | None => ~ (a <= x < a + N.of_nat (length data)) end) -> m' x = m x).
Proof.
  intros rfail efail wres blk m a data H.
  pose proof (program_and_verify_spec rfail efail wres blk m a data H) as P.
  destruct (program_and_verify rfail efail wres blk m a data) as [m' r]. destruct P as (P1 & P2).
  split; [|exact P2]. intros R. apply nth_ext_len with (d := 0); [apply length_img_read|].
  intros i Hi. rewrite length_img_read in Hi. rewrite nth_img_read by auto. auto.
Qed.
Print Assumptions C36_program_and_verify.

(** Copying, within one flash ([other] = None) or from another one: on success the destination holds
    the bytes the source had before the call, a source in the same flash is intact, and nothing
    outside the erase blocks of the destination (outside the destination itself when not erasing)
    changes.  For the copy-to-blank variants without verification the destination must be blank. *)
Theorem C36_copy_exact : forall rfail efail wres other m dest src len erase blk page verify,
  0 < page -> 0 < blk -> (0 < len)%nat ->
  bytes_img m -> bytes_img (source other m) ->
  dest + N.of_nat len <= 2 ^ 32 -> src + N.of_nat len <= 2 ^ 32 ->
  (erase = true \/ verify = true \/ blank_on m dest (N.of_nat len)) ->
  let '(m', r) := copy_region rfail efail wres other m dest src len erase blk blk page verify in
  r = FuOk ->
  img_read m' dest len = img_read (source other m) src len /\
  (other = None -> img_read m' src len = img_read m src len) /\
  (forall x, (forall y, dest <= y < dest + N.of_nat len -> y / blk <> x / blk) -> m' x = m x) /\
  (erase = false -> forall x, ~ (dest <= x < dest + N.of_nat len) -> m' x = m x).
Proof.
  intros rfail efail wres other m dest src len erase blk page verify H1 H2 H3 H4 H5 H6 H7 H8.
  pose proof (copy_region_spec rfail efail wres other m dest src len erase blk page verify
    H1 H2 H3 H4 H5 H6 H7 H8) as C.
  destruct (copy_region rfail efail wres other m dest src len erase blk blk page verify) as [m' r].
  intros R. destruct (C R) as (C1 & C2 & C3 & C4). split; [|split; [|split; [exact C3|exact C4]]].
  - apply img_read_ext. intros i Hi. apply C1. lia.
  - intros Q. apply img_read_ext. intros i Hi. apply C2; auto. lia.
Qed.
Print Assumptions C36_copy_exact.

(** The digest of a list of flash regions is computed over exactly their bytes, in order. *)
Theorem C36_hash_stream_exact : forall rfail m offset regions,
  (forall d, hash_regions rfail m offset regions = Some d ->
     d = concat (map (fun r => img_read m (fst r + offset) (snd r)) regions)) /\
  ((forall x, rfail x = false) -> exists d, hash_regions rfail m offset regions = Some d).
Proof.
  intros. split; [intros; now apply hash_regions_spec with (rfail := rfail)|apply hash_regions_total].
Qed.
Print Assumptions C36_hash_stream_exact.

(** On a device without faults, whose writes take a page at least, erasing succeeds, and copying succeeds unless the
    regions overlap or share an erase block of one flash, or the page is too large for the buffer. *)
Theorem C36_succeeds : forall rfail efail wres page, (forall x, rfail x = false) -> (forall x, efail x = false) ->
  (forall x, exists n, wres x = Some n /\ (N.to_nat page <= n)%nat) -> 0 < page -> page <= MAX_COPY_BLOCK ->
  (forall blk m a len, 0 < blk ->
     let m' := fst (erase_and_verify rfail efail blk m a len) in
     snd (erase_and_verify rfail efail blk m a len) = FuOk /\ blank_on m' a (N.of_nat len)) /\
  (forall other m dest src len erase blk verify, 0 < blk -> bytes_img m -> bytes_img (source other m) ->
     dest + N.of_nat len <= 2 ^ 32 -> src + N.of_nat len <= 2 ^ 32 ->
     (erase = false -> verify = true -> blank_on m dest (N.of_nat len)) ->
     (other = None -> forall x y, src <= x < src + N.of_nat len -> dest <= y < dest + N.of_nat len -> x / blk <> y / blk) ->
     snd (copy_region rfail efail wres other m dest src len erase blk blk page verify) = FuOk).
Proof.
  intros rfail efail wres page Hr He Hw Hp Hm. split.
  - intros blk m a len Hb. pose proof (erase_and_verify_total rfail efail Hr He blk m a len Hb) as T. cbv zeta. split; [auto|].
    unfold erase_and_verify in *. pose proof (erase_region_spec efail blk m a len Hb) as E.
    destruct (erase_region efail blk m a len) as [m' r]. destruct E as (_ & _ & _ & E). destruct r; try discriminate.
    cbn [fst]. intros x Hx. now apply (E eq_refl x x).
  - intros other m dest src len erase blk verify Hb B1 B2 L1 L2 Hv Hd. destruct len as [|k]; [reflexivity|].
    apply copy_region_total; auto. intros O. specialize (Hd O). unfold check_copy_region, region_base.
    assert (D: forall x y, x / blk <> y / blk -> x - x mod blk <> y - y mod blk).
    { intros x y Hxy E. apply Hxy. pose proof (N.div_mod x blk ltac:(lia)) as X. pose proof (N.div_mod y blk ltac:(lia)) as Y.
      apply (N.mul_cancel_l _ _ blk); [lia|].
      transitivity (x - x mod blk); [clear - X; set (p := x mod blk) in *; set (q := blk * (x / blk)) in *; clearbody p q; lia|].
      rewrite E. clear - Y. set (p := y mod blk) in *. set (q := blk * (y / blk)) in *. clearbody p q. lia. }
    assert (M: forall x, x < 2 ^ 32 -> x mod 2 ^ 32 = x) by (intros; now apply N.mod_small).
    destruct (N.eqb_spec (src - src mod blk) (dest - dest mod blk)) as [E|E]; [elim (D src dest); auto; apply Hd; lia|].
    destruct (N.ltb_spec dest src).
    + rewrite M by lia. destruct (N.leb_spec src (dest + N.of_nat (S k) - 1)); [elim (Hd src src); lia|].
      destruct (N.eqb_spec (dest + N.of_nat (S k) - 1 - (dest + N.of_nat (S k) - 1) mod blk) (src - src mod blk)) as [F|F]; [|reflexivity].
      elim (D (dest + N.of_nat (S k) - 1) src); auto. intros Q. apply (Hd src (dest + N.of_nat (S k) - 1)); [lia|lia|auto].
    + rewrite M by lia. destruct (N.leb_spec dest (src + N.of_nat (S k) - 1)); [elim (Hd dest dest); lia|].
      destruct (N.eqb_spec (src + N.of_nat (S k) - 1 - (src + N.of_nat (S k) - 1) mod blk) (dest - dest mod blk)) as [F|F]; [|reflexivity].
      elim (D (src + N.of_nat (S k) - 1) dest); auto. apply Hd; lia.
Qed.
Print Assumptions C36_succeeds.

(** Non-vacuity: a copy inside one flash with 64-byte blocks and 16-byte pages that succeeds, and one
    that is refused because source and destination share a block. *)
Example C36_example :
  let m := fun x => if x <? 128 then x mod 251 else 0 in
  let ok := fun _ : N => false in
  let w := fun _ : N => Some 100%nat in
  snd (copy_region ok ok w None m 200 70 20 true 64 64 16 true) = FuOk /\
  img_read (fst (copy_region ok ok w None m 200 70 20 true 64 64 16 true)) 200 3 = [70; 71; 72] /\
  snd (copy_region ok ok w None m 100 70 20 true 64 64 16 true) = FuSameBlock /\
  snd (copy_region ok ok w None m 100 70 50 true 32 32 16 true) = FuOverlap.
Proof. vm_compute. auto. Qed.
