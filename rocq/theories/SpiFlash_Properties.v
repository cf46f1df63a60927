(** C64: the SPI flash driver makes the device an array of bytes. *)
From Coq Require Import List NArith Lia Bool Arith.
From Verif Require Import Base Flash_Base FlashUpdater_Model SpiFlash_Model SpiFlash_Spec SpiFlash_Proofs SpiFlash_History_Proofs.
Import ListNotations.
Local Open Scope N_scope.

(** While no transfer fails, every history of reads, writes, erases and mode switches, by the driver and
    by somebody else on the bus, has the answers and the effect of an ideal memory, whatever the
    address modes of the device and however long it stays busy. *)
Theorem C64_refines : forall word p c E ops s,
  started p c s -> busy c = O -> reliable E -> Forall (short word) ops ->
  exists rs s', run word p E ops s = Ret (rs, s') /\ length rs = length ops /\
    (forall i o r r', nth_error ops i = Some o -> nth_error rs i = Some r ->
       nth_error (fst (ideal_run (p_size p) ops (cells c))) i = Some r' -> agrees o r r') /\
    (forall x, cells (cp s') x = snd (ideal_run (p_size p) ops (cells c)) x).
Proof.
  intros word p c E ops s ST B RE F. pose proof (started_good _ _ _ ST) as G. destruct ST as (_ & _ & <-).
  destruct (run_ideal word p E RE ops s (cells (cp s)) G B F) as (rs & s' & R & _ & _ & L & N1 & C1); [auto|].
  assert (size (dv s) = p_size p) as E0 by apply G. rewrite E0 in *. eauto 8.
Qed.
Print Assumptions C64_refines.

(** Whatever transfers fail and whatever the device does with them: after every history, the next call
    sends the device addresses in the form it expects, changes nothing outside its target, and its
    answer tells the truth about the memory. *)
Theorem C64_faults : forall word p c E ops o s,
  started p c s -> Forall (short word) ops -> short word o ->
  exists rs s1, run word p E ops s = Ret (rs, s1) /\
    (forall x, (forall o', In o' ops -> ~ target (p_size p) o' x) -> cells (cp s1) x = cells c x) /\
    exists r s2, step word p E o s1 = Ret (r, s2) /\
      (forall x, ~ target (p_size p) o x -> cells (cp s2) x = cells (cp s1) x) /\
      outcome (p_size p) o r (cells (cp s1)) (cells (cp s2)).
Proof.
  intros word p c E ops o s ST F SO. pose proof (started_good _ _ _ ST) as G. destruct ST as (_ & _ & <-).
  destruct (run_good word p E ops s G F) as (rs & s1 & R & G1 & S1 & T1).
  assert (size (dv s) = p_size p) as E0 by apply G. rewrite E0 in *.
  exists rs, s1. split; [auto|]. split; [auto|].
  destruct (step_ok word p E o s1 G1 SO) as (r & s2 & R2 & _ & _ & T2 & O2 & _). rewrite S1 in *.
  exists r, s2. auto.
Qed.
Print Assumptions C64_faults.

(** While no transfer fails, an address mode that the driver reports as set is the mode of the device,
    also after somebody else has switched it. *)
Theorem C64_mode : forall word p c E ops b s rs s1 s2,
  started p c s -> busy c = O -> reliable E -> Forall (short word) ops -> sw p <> InstructionSet ->
  run word p E ops s = Ret (rs, s1) -> step word p E (OpMode b) s1 = Ret (Done, s2) ->
  mode4 (dv s2) = b /\ ext (cp s2) = b.
Proof.
  intros word p c E ops b s rs s1 s2 ST B RE F NI R H. pose proof (started_good _ _ _ ST) as G. destruct ST as (_ & _ & <-).
  destruct (run_ideal word p E RE ops s (cells (cp s)) G B F) as (rs' & s' & R' & G' & B' & _); [auto|].
  rewrite R in R'. injection R' as <- <-. eapply mode_ok; eauto.
Qed.
Print Assumptions C64_mode.

(** ** A device and some histories *)

Definition demo_part : part := {| k3 := true; k4 := true; sw := CommandWren; has4 := true; p_size := 2 ^ 25; p_flag := false |}.
Definition demo_chip : chip := {| cells := fun x => x mod 256; wel := false; busy := O; ext := false |}.
Definition demo_sys : sys := {| dv := match discover demo_part init_state with Some d => d | None => init_state end; cp := demo_chip; tm := O |}.
Definition fine : env := fun _ => {| e_ok := true; e_done := true; e_cut := O; e_delay := 3; e_bits := 5 |}.
(** Transfer number [n] fails without reaching the device. *)
Definition failing (n : nat) : env := fun t => {| e_ok := negb (Nat.eqb t n); e_done := false; e_cut := O; e_delay := 3; e_bits := 5 |}.

Lemma demo_started : started demo_part demo_chip demo_sys.
Proof. repeat split; try discriminate. Qed.

Definition demo_ops : list op :=
  [OpSector (2 ^ 24 + 300); Foreign true; OpWrite (2 ^ 24 + 254) [1; 2; 3; 4]; OpMode true; OpRead (2 ^ 24 + 253) 6; OpRead (2 ^ 25) 1].

(** The hypotheses are met; a write across a page boundary above 16 MiB. *)
Example C64_example :
  started demo_part demo_chip demo_sys /\ reliable fine /\ Forall (short (2 ^ 32)) demo_ops /\
  match run (2 ^ 32) demo_part fine demo_ops demo_sys with
  | Ret (rs, _) => rs = [Done; Done; Count 4; Done; Data [255; 1; 2; 3; 4; 255]; Err AddressRange]
  | Garbled => False
  end.
Proof.
  split; [exact demo_started|]. split; [intros t; reflexivity|].
  split; [unfold demo_ops; repeat constructor|]. vm_compute. reflexivity.
Qed.

(** A failed transfer in the middle of a write: the count is what is known to be programmed. *)
Example C64_faults_example :
  match run (2 ^ 32) demo_part (failing 8) [OpWrite 254 [0; 0; 0; 0]; OpRead 254 4] demo_sys with
  | Ret (rs, _) => rs = [Count 2; Data [0; 0; 0; 1]] \/ rs = [Count 2; Data [0; 0; 0; 0]]
  | Garbled => False
  end.
Proof. vm_compute. auto. Qed.

(** A write that returns an error may have written everything: when the status cannot be read after the
    program command, the data are in the flash and the caller is told that nothing was written. *)
Theorem C64_failed_write_changes_nothing_refuted : ~ (forall word p c E a l s e s',
  started p c s -> short word (OpWrite a l) -> step word p E (OpWrite a l) s = Ret (Err e, s') ->
  forall x, cells (cp s') x = cells c x).
Proof.
  intros H.
  destruct (step (2 ^ 32) demo_part (failing 3) (OpWrite 1 [0]) demo_sys) as [[[n|l| |e] s']|] eqn:R; try (vm_compute in R; discriminate).
  specialize (H (2 ^ 32) demo_part demo_chip (failing 3) 1 [0] demo_sys e s' demo_started ltac:(split; reflexivity) R 1).
  vm_compute in R. injection R as _ <-. vm_compute in H. discriminate.
Qed.
Print Assumptions C64_failed_write_changes_nothing_refuted.

(** Switching the address mode does not check that the device is ready (spi_flash.c:1882-1925): a device
    that is still busy, after a write whose status could not be read, ignores the command, and the driver
    reports the new mode. *)
Theorem C64_mode_while_busy_refuted : ~ (forall word p c E ops b s rs s1 s2,
  started p c s -> busy c = O -> Forall (short word) ops -> sw p <> InstructionSet ->
  run word p E ops s = Ret (rs, s1) -> step word p E (OpMode b) s1 = Ret (Done, s2) ->
  mode4 (dv s2) = b -> ext (cp s2) = b).
Proof.
  intros H.
  destruct (run (2 ^ 32) demo_part (failing 3) [OpWrite 1 [0]] demo_sys) as [[rs s1]|] eqn:R; [|vm_compute in R; discriminate].
  destruct (step (2 ^ 32) demo_part (failing 3) (OpMode true) s1) as [[r s2]|] eqn:R2;
    [|vm_compute in R; injection R as _ <-; vm_compute in R2; discriminate].
  assert (r = Done /\ mode4 (dv s2) = true /\ ext (cp s2) = false) as (-> & M & X).
  { vm_compute in R. injection R as _ <-. vm_compute in R2. injection R2 as <- <-. auto. }
  assert (ext (cp s2) = true) as K; [|congruence].
  eapply (H (2 ^ 32) demo_part demo_chip (failing 3) [OpWrite 1 [0]] true demo_sys); eauto; try discriminate.
  - exact demo_started.
  - repeat constructor.
Qed.
Print Assumptions C64_mode_while_busy_refuted.

(** The bounds check adds the address and the length in size_t (spi_flash.c:57-67): where this has 32 bits,
    a length close to 4 GiB passes. *)
Theorem C64_bounds_refuted : ~ (forall bytes addr len, addr < 2 ^ 32 -> len < 2 ^ 32 ->
  bounds (2 ^ 32) bytes addr len = None -> addr + len <= bytes).
Proof. intros H. specialize (H 8192 4096 (2 ^ 32 - 4096) eq_refl eq_refl eq_refl). vm_compute in H. now apply H. Qed.
Print Assumptions C64_bounds_refuted.
