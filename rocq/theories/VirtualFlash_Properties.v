(** C88: flash in memory. *)
From Coq Require Import List NArith Bool Arith Lia.
From Verif Require Import Base VirtualFlash_Model VirtualFlash_Spec.
Import ListNotations.
Local Open Scope nat_scope.

Lemma range : forall (s : list N) a n, (length s <=? a) || (length s - a <? n) = false <-> within (length s) a n.
Proof.
  intros s a n. unfold within. destruct (Nat.leb_spec (length s) a), (Nat.ltb_spec (length s - a) n); cbn; split; intros; try discriminate; try lia; reflexivity.
Qed.

Lemma base_fits : forall size a, size mod 256 = 0 -> a < size -> a / 256 * 256 + 256 <= size.
Proof.
  intros size a M L. pose proof (Nat.div_mod size 256 ltac:(discriminate)) as E. rewrite M in E.
  assert (a / 256 < size / 256) by (apply Nat.div_lt_upper_bound; lia). nia.
Qed.

Lemma in_block : forall a x, (a / 256 * 256 <= x < a / 256 * 256 + 256) <-> a / 256 = x / 256.
Proof.
  intros a x. pose proof (Nat.div_mod x 256 ltac:(discriminate)). pose proof (Nat.mod_upper_bound x 256 ltac:(discriminate)). split; intros; nia.
Qed.

Lemma step_changes : forall s o x, length s mod 256 = 0 -> x < length s ->
  length (snd (step s o)) = length s /\ fst (step s o) <> Overrun /\ changes (length s) x (nth x s 0%N) o (nth x (snd (step s o)) 0%N).
Proof.
  intros s o x M X. destruct o as [a d|a|]; cbn [step].
  - destruct ((length s <=? a) || (length s - a <? length d)) eqn:R; cbn [fst snd].
    + split; [reflexivity|]. split; [discriminate|]. apply Ch_other. intros [W _]. apply range in W. congruence.
    + apply range in R. destruct R as [R1 R2]. rewrite length_splice by lia. split; [reflexivity|]. split; [discriminate|].
      destruct (Nat.le_gt_cases a x); [destruct (Nat.lt_ge_cases x (a + length d))|].
      * replace (nth x (splice s a d) 0%N) with (nth (x - a) d 0%N).
        { apply Ch_written; [split|]; lia. }
        replace x with (a + (x - a)) at 2 by lia. rewrite nth_splice_in; auto. lia.
      * rewrite nth_splice_out by lia. apply Ch_other. lia.
      * rewrite nth_splice_out by lia. apply Ch_other. lia.
  - destruct (length s <=? a) eqn:R; cbn [fst snd].
    + apply Nat.leb_le in R. split; [reflexivity|]. split; [discriminate|]. apply Ch_kept. lia.
    + apply Nat.leb_gt in R. cbv zeta. unfold BLOCK. pose proof (base_fits _ _ M R) as B. pose proof (in_block a x) as IB.
      destruct (length s <? a / 256 * 256 + 256) eqn:F; [apply Nat.ltb_lt in F; lia|]. cbn [fst snd].
      set (base := a / 256 * 256) in *. set (d := repeat 255%N 256). assert (LD : length d = 256) by apply repeat_length.
      rewrite length_splice by lia. split; [reflexivity|]. split; [discriminate|].
      destruct (Nat.eq_dec (a / 256) (x / 256)) as [E|E].
      * apply IB in E as E'. replace (nth x (splice s base d) 0%N) with 255%N.
        { apply Ch_erased; assumption. }
        replace x with (base + (x - base)) by lia. rewrite nth_splice_in by lia. unfold d. symmetry. apply (repeat_spec 256).
        apply nth_In. rewrite repeat_length. lia.
      * rewrite nth_splice_out; [|lia|]. { apply Ch_kept. tauto. }
        destruct (Nat.lt_ge_cases x base); [now left|]. right. rewrite LD. destruct (Nat.le_gt_cases (base + 256) x); [assumption|]. exfalso. apply E, IB. lia.
  - set (d := repeat 255%N (length s)). assert (LD : length d = length s) by apply repeat_length.
    cbn [fst snd]. rewrite length_splice by lia. split; [reflexivity|]. split; [discriminate|].
    replace (nth x (splice s 0 d) 0%N) with 255%N; [constructor|].
    change x with (0 + x). rewrite nth_splice_in by lia. unfold d. symmetry. apply (repeat_spec (length s)). apply nth_In. rewrite repeat_length. exact X.
Qed.

Lemma run_history : forall l s x, length s mod 256 = 0 -> x < length s ->
  length (run s l) = length s /\ history (length s) x (nth x s 0%N) l (nth x (run s l) 0%N).
Proof.
  induction l as [|o l IH]; intros s x M X; cbn [run fold_left].
  - split; [reflexivity | constructor].
  - change (fold_left _ l (snd (step s o))) with (run (snd (step s o)) l).
    destruct (step_changes s o x M X) as (L & _ & C). destruct (IH (snd (step s o)) x) as [L' H]; [now rewrite L | now rewrite L|].
    rewrite L in H. split; [congruence|]. econstructor; [exact C | exact H].
Qed.

(** On a device of whole blocks, a read returns in each byte what the last
    operation that reached it put there: data written, or 0xff if its block or
    the chip was erased.  It fails exactly if the range is not within the device. *)
Theorem C88_read : forall s l address len,
  length s mod 256 = 0 ->
  (read (run s l) address len <> None <-> within (length s) address len) /\
  forall data, read (run s l) address len = Some data ->
    length data = len /\
    forall i, i < len -> history (length s) (address + i) (nth (address + i) s 0%N) l (nth i data 0%N).
Proof.
  intros s l address len M.
  assert (L : length (run s l) = length s).
  { destruct s as [|v s'] eqn:E; [|rewrite <- E in *; apply (run_history l s 0 M); rewrite E; cbn; lia].
    clear M. assert (G : forall l, run [] l = []); [|now rewrite G].
    clear l. induction l as [|o l IH]; [reflexivity|]. cbn [run fold_left]. replace (snd (step [] o)) with (@nil N); [exact IH|]. now destruct o. }
  unfold read. split.
  - rewrite <- L, <- range. destruct ((length (run s l) <=? address) || (length (run s l) - address <? len)); split; intros; congruence.
  - intros data H. destruct ((length (run s l) <=? address) || (length (run s l) - address <? len)) eqn:R; [discriminate|].
    apply range in R. rewrite L in R. destruct R as [R1 R2]. injection H as <-. split; [rewrite length_window, L; lia|].
    intros i I. destruct (run_history l s (address + i) M ltac:(lia)) as [_ H]. rewrite nth_window by exact I. exact H.
Qed.
Print Assumptions C88_read.

(** A write reports its length exactly if its range is within the device, an erase
    works exactly if its address is, and nothing behind the device is written. *)
Theorem C88_status : forall s a d, length s mod 256 = 0 ->
  (fst (step s (Write a d)) = Done (length d) <-> within (length s) a (length d)) /\
  (fst (step s (Write a d)) <> Done (length d) -> step s (Write a d) = (OutOfRange, s)) /\
  (fst (step s (Erase a)) = Done 0 <-> a < length s) /\
  (fst (step s (Erase a)) <> Done 0 -> step s (Erase a) = (OutOfRange, s)) /\
  fst (step s ChipErase) = Done 0.
Proof.
  intros s a d M. cbn [step]. rewrite <- range.
  destruct ((length s <=? a) || (length s - a <? length d)) eqn:R; cbn [fst].
  all: destruct (length s <=? a) eqn:Q; cbn [fst].
  all: try (apply Nat.leb_le in Q). all: try (apply Nat.leb_gt in Q).
  all: try (cbv zeta; unfold BLOCK; pose proof (base_fits _ _ M Q); destruct (length s <? a / 256 * 256 + 256) eqn:F; [apply Nat.ltb_lt in F; lia|]; cbn [fst]).
  all: repeat split; intros; try congruence; try lia.
Qed.
Print Assumptions C88_status.

(** REFUTED: that this holds for devices of any size.  The size is not checked when
    a device is made; if it is not a number of whole blocks, erasing the last
    block writes past the end of its memory. *)
Theorem C88_size_refuted : forall s, length s mod 256 <> 0 -> fst (step s (Erase (length s - 1))) = Overrun.
Proof.
  intros s M. pose proof (Nat.div_mod (length s) 256 ltac:(discriminate)) as E. pose proof (Nat.mod_upper_bound (length s) 256 ltac:(discriminate)) as B.
  assert (P : 0 < length s) by (destruct s; [now elim M | cbn; lia]).
  cbn [step]. destruct (length s <=? length s - 1) eqn:Q; [apply Nat.leb_le in Q; lia|]. cbv zeta. unfold BLOCK.
  assert (D : (length s - 1) / 256 = length s / 256) by (symmetry; apply (Nat.div_unique _ _ _ (length s mod 256 - 1)); lia).
  rewrite D. destruct (length s <? length s / 256 * 256 + 256) eqn:F; [reflexivity|]. apply Nat.ltb_ge in F. lia.
Qed.
Print Assumptions C88_size_refuted.

(** REFUTED: that it behaves as flash, where a write without an erase only clears
    bits: a write puts any value over any other. *)
Theorem C88_not_flash_refuted : forall s x v, x < length s ->
  fst (step s (Write x [v])) = Done 1 /\ nth x (snd (step s (Write x [v]))) 0%N = v.
Proof.
  intros s x v X. cbn [step]. assert (W : within (length s) x (length [v])) by (split; cbn; lia). apply range in W. rewrite W. cbn [fst snd].
  split; [reflexivity|]. pose proof (nth_splice_in s x [v] 0 0%N ltac:(cbn; lia) ltac:(cbn; lia)) as H. rewrite Nat.add_0_r in H. exact H.
Qed.
Print Assumptions C88_not_flash_refuted.

(** Non-vacuity: a device of two blocks. *)
Example C88_example :
  let s := run (repeat 0%N 512) [Write 254 [1; 2; 3; 4]%N; Erase 300; Write 511 [7; 8]%N; Write 511 [7]%N] in
  length (repeat 0%N 512) mod 256 = 0 /\ read s 253 4 = Some [0; 1; 2; 255]%N /\ read s 510 2 = Some [255; 7]%N /\ read s 511 2 = None /\
  read s 512 0 = None.
Proof. vm_compute. repeat split. Qed.
