(** The driver and the device: status polling, programming, erasing. *)
From Coq Require Import List NArith Lia Bool Arith ZifyBool ZifyNat ZifyN.
From Verif Require Import Base Flash_Base FlashUpdater_Model SpiFlash_Model SpiFlash_Spec.
Import ListNotations.
Local Open Scope N_scope.

Definition good (p : part) (s : sys) : Prop :=
  consistent p (cp s) /\ size (dv s) = p_size p /\ cap3 (dv s) = eff3 p /\ cap4 (dv s) = eff4 p /\ native (dv s) = both p /\
  how (dv s) = sw p /\ (both p = true -> has4 p = true) /\
  (eff3 p = false -> mode4 (dv s) = true) /\ (eff4 p = false -> mode4 (dv s) = false).

Lemma started_good : forall p c s, started p c s -> good p s.
Proof.
  intros p c s (C & D & E). unfold discover in D.
  destruct ((match sw p with Fixed => false | _ => k3 p end && match sw p with Unsupported => false | _ => k4 p end) && negb (has4 p)) eqn:Q;
    [discriminate|]. injection D as D.
  unfold good. rewrite <- D, E. cbn [size cap3 cap4 native how mode4 init_state].
  assert (eff3 p = match sw p with Fixed => false | _ => k3 p end) as E3 by (unfold eff3; destruct (sw p), (k3 p); reflexivity).
  assert (eff4 p = match sw p with Unsupported => false | _ => k4 p end) as E4 by (unfold eff4; destruct (sw p), (k4 p); reflexivity).
  rewrite <- E3, <- E4 in *. unfold both in *. destruct C as (C1 & C2 & C3). 
  split; [exact (conj C1 (conj C2 C3))|]. repeat (split; [reflexivity|]).
  split; [destruct (eff3 p), (eff4 p); reflexivity|]. split; [reflexivity|].
  split; [intros B; rewrite B in Q; destruct (has4 p); auto|].
  split; intros B; rewrite B in *; destruct (eff3 p), (eff4 p); auto; discriminate.
Qed.

(** What stays in place: the driver's configuration and the mode of the device. *)
Definition same (s s' : sys) : Prop := dv s' = dv s /\ ext (cp s') = ext (cp s).
Lemma same_refl : forall s, same s s.
Proof. now split. Qed.
Lemma same_trans : forall a b c, same a b -> same b c -> same a c.
Proof. intros a b c [A1 A2] [B1 B2]. split; congruence. Qed.
Lemma good_same : forall p s s', good p s -> same s s' -> good p s'.
Proof. intros p s s' G [A B]. unfold good, consistent in *. rewrite A, B. exact G. Qed.

Lemma decode_ok : forall p s c a, good p s -> ext c = ext (cp s) -> a < size (dv s) ->
  decode p c (native (dv s)) (four (dv s)) a = Some a.
Proof.
  intros p s c a (C & S & C3 & C4 & Nv & _ & H4 & M3 & M4) X A. unfold decode, four. rewrite Nv, X.
  destruct C as (C1 & C2 & E3 & E4). rewrite S in A.
  assert (a mod 2 ^ 32 = a) as W by (apply N.mod_small; lia).
  destruct (both p) eqn:B; cbn [andb orb negb eqb].
  - rewrite (H4 eq_refl). cbn [negb]. now rewrite W.
  - unfold both in B. destruct (eff3 p) eqn:F3.
    + destruct (eff4 p) eqn:F4; [discriminate|]. destruct (E4 eq_refl) as [-> L]. rewrite (M4 eq_refl). cbn [eqb].
      f_equal. apply N.mod_small. lia.
    + rewrite (E3 eq_refl), (M3 eq_refl). cbn [eqb]. now rewrite W.
Qed.

(** ** Status *)

Lemma land_bit : forall x n, N.land x (2 ^ n) = if N.testbit x n then 2 ^ n else 0.
Proof.
  intros. apply N.bits_inj. intros i. rewrite N.land_spec, N.pow2_bits_eqb.
  destruct (N.eqb_spec n i) as [->|H].
  - destruct (N.testbit x i); [now rewrite N.pow2_bits_true|now rewrite N.bits_0].
  - rewrite andb_false_r. destruct (N.testbit x n); [symmetry; now apply N.pow2_bits_false|now rewrite N.bits_0].
Qed.

Lemma flag_bit : forall b (i : bool), (N.land (b mod 128 + (if i then 128 else 0)) 128 =? 0) = negb i.
Proof.
  intros. change 128 with (2 ^ 7) at 3. rewrite land_bit.
  assert (N.testbit (b mod 128 + (if i then 128 else 0)) 7 = i) as ->; [|destruct i; reflexivity].
  rewrite N.testbit_eqb. change (2 ^ 7) with 128. pose proof (N.mod_lt b 128 ltac:(lia)).
  destruct i.
  - replace (b mod 128 + 128) with (1 * 128 + b mod 128) by lia. rewrite N.div_add_l, (N.div_small (b mod 128)) by lia. reflexivity.
  - rewrite N.add_0_r, N.div_small by lia. reflexivity.
Qed.

Lemma wip_bit : forall b (i : bool), negb (N.land (b mod 128 * 2 + (if i then 0 else 1)) 1 =? 0) = negb i.
Proof.
  intros. change 1 with (N.ones 1) at 2. rewrite N.land_ones. change (2 ^ 1) with 2.
  rewrite N.add_comm, N.mod_add by lia. destruct i; reflexivity.
Qed.

Lemma is_wip_ok : forall p E s, exists w s', is_wip p E s = Ret (w, s') /\ same s s' /\ cells (cp s') = cells (cp s) /\
  wel (cp s') = wel (cp s) /\ (tm s < tm s')%nat /\
  match w with
  | Idle => busy (cp s) = O /\ busy (cp s') = O
  | InProgress => busy (cp s) = S (busy (cp s'))
  | Failed => e_ok (E (tm s)) = false
  end.
Proof.
  intros. unfold is_wip, transfer. destruct (e_ok (E (tm s))) eqn:OK; cbn [orb].
  - unfold exec. destruct (use_flag (dv s)); cbn [x_cmd bind nth].
    + rewrite flag_bit. destruct (Nat.eqb_spec (busy (cp s)) 0) as [B|B]; cbn [negb]; eexists _, _; (split; [reflexivity|]);
      cbn [dv cp tm cells wel busy ext]; do 4 (split; [unfold same; cbn; auto|]); [split; [auto|now rewrite B]|lia].
    + rewrite wip_bit. destruct (Nat.eqb_spec (busy (cp s)) 0) as [B|B]; cbn [negb]; eexists _, _; (split; [reflexivity|]);
      cbn [dv cp tm cells wel busy ext]; do 4 (split; [unfold same; cbn; auto|]); [split; [auto|now rewrite B]|lia].
  - destruct (e_done (E (tm s))).
    + unfold exec. destruct (use_flag (dv s)); cbn [x_cmd bind nth]; eexists _, _; (split; [reflexivity|]);
      cbn [dv cp tm cells wel busy ext]; do 4 (split; [unfold same; cbn; auto|]); auto.
    + cbn [bind]. eexists _, _; (split; [reflexivity|]);
      cbn [dv cp tm cells wel busy ext]; do 4 (split; [unfold same; cbn; auto|]); auto.
Qed.

Lemma wait_loop_ok : forall p E fuel s, (busy (cp s) < fuel)%nat -> exists ok s', wait_loop fuel p E s = Ret (ok, s') /\
  same s s' /\ cells (cp s') = cells (cp s) /\ (ok = true -> busy (cp s') = O) /\ (reliable E -> ok = true).
Proof.
  induction fuel as [|fuel IH]; intros s L; [lia|]. cbn [wait_loop].
  destruct (is_wip_ok p E s) as (w & s1 & R & S1 & C1 & _ & _ & W). rewrite R. cbn [bind]. destruct w.
  - eexists _, _. split; [reflexivity|]. tauto.
  - destruct (IH s1) as (ok & s2 & R2 & S2 & C2 & B2 & O2); [lia|]. rewrite R2. eexists _, _. split; [reflexivity|].
    split; [eapply same_trans; eauto|]. split; [congruence|]. auto.
  - eexists _, _. split; [reflexivity|]. split; [auto|]. split; [auto|]. split; [discriminate|].
    intros Q. rewrite Q in W. discriminate.
Qed.

Lemma wait_ok : forall p E s, exists ok s', wait p E s = Ret (ok, s') /\
  same s s' /\ cells (cp s') = cells (cp s) /\ (ok = true -> busy (cp s') = O) /\ (reliable E -> ok = true).
Proof. intros. apply wait_loop_ok. lia. Qed.

Lemma write_enable_ok : forall p E s, busy (cp s) = O -> exists ok s', write_enable p E s = Ret (ok, s') /\
  same s s' /\ cells (cp s') = cells (cp s) /\ busy (cp s') = O /\ (ok = true -> wel (cp s') = true) /\ (reliable E -> ok = true).
Proof.
  intros p E s B. unfold write_enable, transfer. destruct (e_ok (E (tm s))) eqn:OK; cbn [orb].
  - unfold exec, simple. cbn [x_cmd]. rewrite B. cbn [Nat.eqb negb bind]. eexists _, _. split; [reflexivity|].
    cbn [dv cp cells wel busy ext]. do 3 (split; [unfold same; cbn; auto|]). auto.
  - assert (reliable E -> false = true) as Q by (intros H; now rewrite H in OK).
    destruct (e_done (E (tm s))).
    + unfold exec, simple. cbn [x_cmd]. rewrite B. cbn [Nat.eqb negb bind]. eexists _, _. split; [reflexivity|].
      cbn [dv cp cells wel busy ext]. do 3 (split; [unfold same; cbn; auto|]). auto.
    + cbn [bind]. eexists _, _. split; [reflexivity|]. cbn [dv cp cells wel busy ext]. do 3 (split; [unfold same; cbn; auto|]). split; [discriminate|exact Q].
Qed.

(** ** Programming *)

Lemma page_program_fit : forall m a data x, a mod 256 + N.of_nat (length data) <= 256 ->
  page_program m a data x = nor_write m a data x.
Proof.
  intros m a data x H. unfold page_program, nor_write, inb.
  pose proof (N.div_mod a 256 ltac:(lia)) as DA. pose proof (N.div_mod x 256 ltac:(lia)) as DX.
  pose proof (N.mod_lt a 256 ltac:(lia)). pose proof (N.mod_lt x 256 ltac:(lia)).
  destruct (N.eqb_spec (x / 256) (a / 256)) as [Q|Q].
  - assert (x + 256 - a mod 256 = x / 256 * 256 + (256 + x mod 256 - a mod 256)) as E by lia. rewrite E.
    rewrite N.add_comm, N.mod_add by lia.
    destruct (N.le_gt_cases (a mod 256) (x mod 256)) as [G|G].
    + replace (256 + x mod 256 - a mod 256) with (x - a + 1 * 256) by lia. rewrite N.mod_add, N.mod_small by lia.
      destruct (x - a <? N.of_nat (length data)) eqn:T.
      * replace ((a <=? x) && (x <? a + N.of_nat (length data))) with true by lia. reflexivity.
      * replace ((a <=? x) && (x <? a + N.of_nat (length data))) with false by lia. reflexivity.
    + rewrite N.mod_small by lia.
      replace (256 + x mod 256 - a mod 256 <? N.of_nat (length data)) with false by lia.
      replace ((a <=? x) && (x <? a + N.of_nat (length data))) with false by lia. reflexivity.
  - replace ((a <=? x) && (x <? a + N.of_nat (length data))) with false; [reflexivity|].
    symmetry. apply andb_false_iff.
    destruct (N.lt_ge_cases x a); [left; lia|right]. assert (a / 256 <= x / 256) by (apply N.div_le_mono; lia). lia.
Qed.

Lemma nor_write_split : forall m a n data x, (n <= length data)%nat -> 
  nor_write (nor_write m a (firstn n data)) (a + N.of_nat n) (skipn n data) x = nor_write m a data x.
Proof.
  intros. unfold nor_write, inb. rewrite skipn_length, firstn_length, Nat.min_l by auto.
  destruct ((a + N.of_nat n <=? x) && (x <? a + N.of_nat n + N.of_nat (length data - n))) eqn:E1.
  - replace ((a <=? x) && (x <? a + N.of_nat n)) with false by lia.
    replace ((a <=? x) && (x <? a + N.of_nat (length data))) with true by lia.
    rewrite nth_skipn. do 2 f_equal. lia.
  - destruct ((a <=? x) && (x <? a + N.of_nat n)) eqn:E2.
    + replace ((a <=? x) && (x <? a + N.of_nat (length data))) with true by lia. rewrite nth_firstn by lia. reflexivity.
    + replace ((a <=? x) && (x <? a + N.of_nat (length data))) with false by lia. reflexivity.
Qed.

Lemma nor_write_cut : forall m a k data x, nor_write m a (firstn k data) x = m x \/ nor_write m a (firstn k data) x = nor_write m a data x.
Proof.
  intros. unfold nor_write, inb. rewrite firstn_length.
  destruct ((a <=? x) && (x <? a + N.of_nat (Nat.min k (length data)))) eqn:E1; [|now left]. right.
  replace ((a <=? x) && (x <? a + N.of_nat (length data))) with true by lia. rewrite nth_firstn by lia. reflexivity.
Qed.

Lemma program_ok : forall p E s a data, good p s -> busy (cp s) = O -> wel (cp s) = true -> a < size (dv s) ->
  a mod 256 + N.of_nat (length data) <= 256 ->
  exists ok r s', transfer p E {| x_cmd := Program (native (dv s)); x_addr := a; x_four := four (dv s);
      x_data := data; x_len := length data |} s = Ret (ok, r, s') /\ same s s' /\
    (forall x, cells (cp s') x = cells (cp s) x \/ cells (cp s') x = nor_write (cells (cp s)) a data x) /\
    (ok = true -> forall x, cells (cp s') x = nor_write (cells (cp s)) a data x) /\ (reliable E -> ok = true).
Proof.
  intros p E s a data G B W A F. unfold transfer.
  assert (forall e dt, a mod 256 + N.of_nat (length dt) <= 256 ->
    exec p e {| x_cmd := Program (native (dv s)); x_addr := a; x_four := four (dv s); x_data := dt; x_len := length data |} (cp s) =
    Ret ([], with_cells (page_program (cells (cp s)) a dt) (e_delay e) (cp s))) as X.
  { intros e dt _. unfold exec. cbn [x_cmd x_four x_addr x_data]. rewrite B, W. cbn [Nat.eqb negb].
    rewrite (decode_ok p s) by auto. reflexivity. }
  destruct (e_ok (E (tm s))) eqn:OK; cbn [orb x_cmd x_addr x_four x_data x_len].
  - rewrite X by auto. cbn [bind]. eexists _, _, _. split; [reflexivity|]. unfold same, with_cells. cbn [dv cp cells ext].
    split; [auto|]. split; [|split; [|auto]]; intros; [right|]; now apply page_program_fit.
  - assert (reliable E -> false = true) as Q by (intros H; now rewrite H in OK).
    destruct (e_done (E (tm s))).
    + assert (a mod 256 + N.of_nat (length (firstn (e_cut (E (tm s))) data)) <= 256) as F2 by (rewrite firstn_length; lia).
      rewrite X by auto. cbn [bind]. eexists _, _, _. split; [reflexivity|]. unfold same, with_cells. cbn [dv cp cells ext].
      split; [auto|]. split; [|split; [discriminate|auto]]. intros x. rewrite page_program_fit by auto. apply nor_write_cut.
    + eexists _, _, _. split; [reflexivity|]. unfold same. cbn [dv cp]. split; [auto|]. split; [now left|]. split; [discriminate|auto].
Qed.

Lemma w32_id : forall x, x < 2 ^ 32 -> w32 x = x.
Proof. intros. unfold w32. now apply N.mod_small. Qed.

Definition progress (m m' : image) (a : N) (data : list N) (k : nat) : Prop :=
  (forall x, m' x = m x \/ m' x = nor_write m a data x) /\
  (forall x, x < a + N.of_nat k -> m' x = nor_write m a data x).

Lemma write_loop_ok : forall p E fuel a data s, good p s -> busy (cp s) = O -> (length data <= fuel)%nat ->
  (data = [] \/ a + N.of_nat (length data) <= size (dv s)) ->
  exists ok rest s', write_loop fuel p E a (a / 256 * 256) (w32 (a / 256 * 256 + 256)) data s = Ret (ok, rest, s') /\ same s s' /\
    (length rest <= length data)%nat /\ progress (cells (cp s)) (cells (cp s')) a data (length data - length rest) /\
    (ok = true -> rest = [] /\ busy (cp s') = O) /\ (reliable E -> ok = true).
Proof.
  induction fuel as [|fuel IH]; intros a data s G B L A.
  - destruct data; [|cbn in L; lia]. cbn [write_loop]. eexists _, _, _. split; [reflexivity|]. split; [apply same_refl|].
    split; [auto|]. split; [|auto]. split; [now left|]. intros x Hx. unfold nor_write, inb. cbn [length].
    replace ((a <=? x) && (x <? a + N.of_nat 0)) with false by lia. reflexivity.
  - destruct data as [|b t] eqn:ED.
    { cbn [write_loop]. eexists _, _, _. split; [reflexivity|]. split; [apply same_refl|].
      split; [auto|]. split; [|auto]. split; [now left|]. intros x Hx. unfold nor_write, inb. cbn [length].
      replace ((a <=? x) && (x <? a + N.of_nat 0)) with false by lia. reflexivity. }
    rewrite <- ED in *. assert (data <> []) as NE by (rewrite ED; discriminate).
    destruct A as [A|A]; [contradiction|].
    assert (size (dv s) < 2 ^ 32) as SZ by (destruct G as ((C & _) & S & _); rewrite S; exact C).
    assert (0 < length data)%nat as L0 by (rewrite ED; cbn; lia).
    assert (write_loop (S fuel) p E a (a / 256 * 256) (w32 (a / 256 * 256 + 256)) data s =
      (let e := w32 (a + N.of_nat (length data)) in
       let n := if a / 256 * 256 =? e / 256 * 256 then length data else N.to_nat (w32 (w32 (a / 256 * 256 + 256) + 2 ^ 32 - a)) in
       '(ok, s) <- write_enable p E s;
       if negb ok then Ret (false, data, s)
       else
       '(ok, _, s) <- transfer p E {| x_cmd := Program (native (dv s)); x_addr := a; x_four := four (dv s);
                                     x_data := firstn n data; x_len := n |} s;
       if negb ok then Ret (false, data, s)
       else
        '(ok, s) <- wait p E s;
        if ok then write_loop fuel p E (w32 (a / 256 * 256 + 256)) (w32 (a / 256 * 256 + 256)) (w32 (w32 (a / 256 * 256 + 256) + 256)) (skipn n data) s
        else Ret (false, data, s))) as EQ by (rewrite ED; reflexivity).
    rewrite EQ. clear EQ. cbv zeta. rewrite (w32_id (a + N.of_nat (length data))) by lia.
    set (q := a / 256). pose proof (N.div_mod a 256 ltac:(lia)) as DA. pose proof (N.mod_lt a 256 ltac:(lia)) as MA. fold q in DA.
    set (q2 := (a + N.of_nat (length data)) / 256).
    pose proof (N.div_mod (a + N.of_nat (length data)) 256 ltac:(lia)) as DE. fold q2 in DE.
    pose proof (N.mod_lt (a + N.of_nat (length data)) 256 ltac:(lia)) as ME.
    set (n := if q * 256 =? q2 * 256 then length data else N.to_nat (w32 (w32 (q * 256 + 256) + 2 ^ 32 - a))).
    assert ((n = length data /\ a mod 256 + N.of_nat n <= 256 /\ q = q2) \/
            (N.of_nat n = 256 - a mod 256 /\ (n <= length data)%nat /\ (0 < n)%nat /\ w32 (q * 256 + 256) = a + N.of_nat n)) as NN.
    { unfold n. destruct (N.eqb_spec (q * 256) (q2 * 256)) as [Q|Q].
      - left. split; [reflexivity|]. assert (q = q2) by lia. subst q2. rewrite <- H in *. lia.
      - right. assert (q < q2) by (clear - Q DA DE MA ME L0; nia).
        assert (q * 256 + 256 <= a + N.of_nat (length data)) by nia.
        rewrite (w32_id (q * 256 + 256)) by lia.
        assert (w32 (q * 256 + 256 + 2 ^ 32 - a) = q * 256 + 256 - a) as ->.
        { unfold w32. replace (q * 256 + 256 + 2 ^ 32 - a) with (q * 256 + 256 - a + 1 * 2 ^ 32) by lia.
          rewrite N.mod_add by lia. apply N.mod_small. lia. }
        lia. }
    assert (length (firstn n data) = n) as LF by (rewrite firstn_length; lia).
    assert (a mod 256 + N.of_nat (length (firstn n data)) <= 256) as FIT by (rewrite LF; lia).
    assert (forall m m', (forall x, m' x = m x \/ m' x = nor_write m a (firstn n data) x) -> progress m m' a data (length data - length data)) as PF.
    { intros m m' H. rewrite Nat.sub_diag. split.
      - intros x. destruct (H x) as [->| ->]; [now left|]. apply nor_write_cut.
      - intros x Hx. destruct (H x) as [->| ->]; unfold nor_write, inb;
        [replace ((a <=? x) && (x <? a + N.of_nat (length data))) with false by lia; reflexivity|].
        replace ((a <=? x) && (x <? a + N.of_nat (length (firstn n data)))) with false by lia.
        replace ((a <=? x) && (x <? a + N.of_nat (length data))) with false by lia. reflexivity. }
    destruct (write_enable_ok p E s B) as (ok1 & s1 & R1 & S1 & C1 & B1 & W1 & O1). rewrite R1. cbn [bind].
    destruct ok1; cbn [negb].
    2:{ eexists _, _, _. split; [reflexivity|]. split; [auto|]. split; [auto|]. split; [apply PF; rewrite C1; now left|].
        split; [discriminate|auto]. }
    pose proof (good_same _ _ _ G S1) as G1.
    replace (x_len {| x_cmd := Program (native (dv s1)); x_addr := a; x_four := four (dv s1); x_data := firstn n data; x_len := n |}) with n by reflexivity.
    destruct (program_ok p E s1 a (firstn n data) G1 B1 (W1 eq_refl)) as (ok2 & r2 & s2 & R2 & S2 & C2 & D2 & O2); auto.
    { destruct S1 as [-> _]. lia. }
    rewrite LF in R2. rewrite R2. cbn [bind]. rewrite C1 in *.
    destruct ok2; cbn [negb].
    2:{ eexists _, _, _. split; [reflexivity|]. split; [eapply same_trans; eauto|]. split; [auto|]. split; [apply PF; auto|].
        split; [discriminate|auto]. }
    specialize (D2 eq_refl).
    destruct (wait_ok p E s2) as (ok3 & s3 & R3 & S3 & C3 & B3 & O3). rewrite R3. cbn [bind].
    assert (same s s3) as SS by (eapply same_trans; [exact S1|]; eapply same_trans; eauto).
    destruct ok3.
    2:{ eexists _, _, _. split; [reflexivity|]. split; [auto|]. split; [auto|]. split; [apply PF; rewrite C3; auto|].
        split; [discriminate|auto]. }
    destruct NN as [(N1 & N2 & N3)|(N1 & N2 & N3 & N4)].
    + rewrite N1, skipn_all in *. 
      assert (write_loop fuel p E (w32 (q * 256 + 256)) (w32 (q * 256 + 256)) (w32 (w32 (q * 256 + 256) + 256)) [] s3 = Ret (true, [], s3)) as ->
        by (destruct fuel; reflexivity).
      eexists _, _, _. split; [reflexivity|]. split; [auto|]. split; [cbn; lia|]. split; [|auto].
      rewrite firstn_all in D2. rewrite C3. split; intros; [right|]; apply D2.
    + rewrite N4.
      assert ((a + N.of_nat n) / 256 * 256 = a + N.of_nat n) as PB.
      { replace (a + N.of_nat n) with ((q + 1) * 256) by lia. rewrite N.div_mul by lia. reflexivity. }
      assert (forall D, write_loop fuel p E (a + N.of_nat n) (a + N.of_nat n) (w32 (a + N.of_nat n + 256)) D s3 =
        write_loop fuel p E (a + N.of_nat n) ((a + N.of_nat n) / 256 * 256) (w32 ((a + N.of_nat n) / 256 * 256 + 256)) D s3) as ->
        by (intros; now rewrite PB).
      destruct (IH (a + N.of_nat n) (skipn n data) s3) as (ok & rest & s4 & R4 & S4 & L4 & P4 & B4 & O4).
      * exact (good_same _ _ _ G SS).
      * auto.
      * rewrite skipn_length. lia.
      * right. rewrite skipn_length. destruct SS as [-> _]. lia.
      * rewrite R4. eexists _, _, _. split; [reflexivity|]. split; [eapply same_trans; eauto|]. rewrite skipn_length in *.
        split; [lia|]. split; [|auto]. destruct P4 as [P4a P4b]. rewrite C3 in P4a, P4b.
        assert (forall x, nor_write (cells (cp s2)) (a + N.of_nat n) (skipn n data) x = nor_write (cells (cp s)) a data x) as NW.
        { intros x. rewrite <- (nor_write_split (cells (cp s)) a n data x) by lia. unfold nor_write at 1 2.
          rewrite (D2 x). reflexivity. }
        split.
        -- intros x. destruct (P4a x) as [->| ->]; rewrite ?NW; auto. rewrite D2. apply nor_write_cut.
        -- intros x Hx. rewrite P4b by lia. apply NW.
Qed.

(** ** Whole calls *)

Lemma bounds_ok : forall word bytes a len, a + len < word ->
  bounds word bytes a len = (if bytes <=? a then Some AddressRange else if bytes <? a + len then Some OperationRange else None).
Proof. intros. unfold bounds. now rewrite (N.mod_small (a + len) word). Qed.

Lemma write_ok : forall word p E a data s, good p s -> a + N.of_nat (length data) < word ->
  exists r s', write word p E a data s = Ret (r, s') /\ same s s' /\
    match r with
    | Count n => (n <= length data)%nat /\ a + N.of_nat (length data) <= size (dv s) /\
        progress (cells (cp s)) (cells (cp s')) a data n
    | Err Transfer => a + N.of_nat (length data) <= size (dv s) /\ progress (cells (cp s)) (cells (cp s')) a data 0
    | Err _ => cells (cp s') = cells (cp s)
    | _ => False
    end /\
    (reliable E -> busy (cp s) = O -> busy (cp s') = O /\
      r = if size (dv s) <=? a then Err AddressRange else if size (dv s) <? a + N.of_nat (length data) then Err OperationRange
          else Count (length data)).
Proof.
  intros word p E a data s G LW. unfold write. rewrite bounds_ok by auto.
  destruct (size (dv s) <=? a) eqn:E1; [eexists _, _; split; [reflexivity|]; split; [apply same_refl|]; auto|].
  destruct (size (dv s) <? a + N.of_nat (length data)) eqn:E2; [eexists _, _; split; [reflexivity|]; split; [apply same_refl|]; auto|].
  assert (forall m, progress m m a data 0) as P0.
  { intros m. split; [now left|]. intros x Hx. unfold nor_write, inb.
    replace ((a <=? x) && (x <? a + N.of_nat (length data))) with false by lia. reflexivity. }
  destruct (is_wip_ok p E s) as (w & s1 & R & S1 & C1 & _ & _ & W). rewrite R. cbn [bind]. destruct w.
  - destruct W as [W0 W]. pose proof (good_same _ _ _ G S1) as G1.
    destruct (write_loop_ok p E (length data) a data s1 G1 W (Nat.le_refl _)) as (ok & rest & s2 & R2 & S2 & L2 & P2 & B2 & O2).
    { right. destruct S1 as [-> _]. lia. }
    rewrite R2. cbn [bind]. eexists _, _. split; [reflexivity|]. split; [eapply same_trans; eauto|]. rewrite C1 in P2. split.
    + destruct (Nat.eqb_spec (length data - length rest) 0) as [Z|Z]; cbn [negb].
      * rewrite Z in P2. destruct ok; [split; [lia|split; [lia|auto]]|split; [lia|auto]].
      * split; [lia|split; [lia|auto]].
    + intros RE B. destruct (B2 (O2 RE)) as [-> B3]. rewrite (O2 RE). cbn [length]. rewrite Nat.sub_0_r. split; [auto|].
      destruct (Nat.eqb_spec (length data) 0) as [Z|Z]; cbn [negb]; [now rewrite Z|reflexivity].
  - eexists _, _. split; [reflexivity|]. split; [auto|]. split; [exact C1|]. intros _ B. rewrite B in W. discriminate.
  - eexists _, _. split; [reflexivity|]. split; [auto|]. split; [split; [lia|rewrite C1; apply P0]|].
    intros RE. rewrite RE in W. discriminate.
Qed.

Lemma read_ok : forall word p E a len s, good p s -> a + N.of_nat len < word ->
  exists r s', read word p E a len s = Ret (r, s') /\ same s s' /\ cells (cp s') = cells (cp s) /\
    match r with
    | Data l => l = img_read (cells (cp s)) a len
    | Err _ => True
    | _ => False
    end /\
    (reliable E -> busy (cp s) = O -> busy (cp s') = O /\
      r = if size (dv s) <=? a then Err AddressRange else if size (dv s) <? a + N.of_nat len then Err OperationRange
          else Data (img_read (cells (cp s)) a len)).
Proof.
  intros word p E a len s G LW. unfold read. rewrite bounds_ok by auto.
  destruct (size (dv s) <=? a) eqn:E1; [eexists _, _; split; [reflexivity|]; split; [apply same_refl|]; auto|].
  destruct (size (dv s) <? a + N.of_nat len) eqn:E2; [eexists _, _; split; [reflexivity|]; split; [apply same_refl|]; auto|].
  destruct (is_wip_ok p E s) as (w & s1 & R & S1 & C1 & _ & _ & W). rewrite R. cbn [bind]. destruct w.
  - destruct W as [W0 W]. pose proof (good_same _ _ _ G S1) as G1.
    assert (forall e x, x_cmd x = Read (native (dv s1)) -> x_addr x = a -> x_four x = four (dv s1) -> x_len x = len ->
      exec p e x (cp s1) = Ret (img_read (cells (cp s)) a len, cp s1)) as X.
    { intros e x X1 X2 X3 X4. unfold exec. rewrite X1, X2, X3, X4, W. cbn [Nat.eqb negb].
      assert (a < size (dv s1)) as AL by (destruct S1 as [-> _]; lia).
      rewrite (decode_ok p s1) by auto. f_equal. f_equal. unfold img_read. rewrite C1. apply map_ext_in. intros k Hk. apply in_seq in Hk.
      f_equal. apply N.mod_small. destruct G1 as ((K1 & _ & K3 & K4) & K5 & _ & _ & K6 & _ & _ & K7 & K8). unfold four.
      assert (a + N.of_nat k < size (dv s1)) as AK by (destruct S1 as [-> _]; lia). rewrite K5 in AK.
      destruct (native (dv s1) || mode4 (dv s1)) eqn:FO; [lia|]. apply orb_false_iff in FO. destruct FO as [F1 F2].
      rewrite K6 in F1. unfold both in F1. destruct (eff3 p); [|rewrite (K7 eq_refl) in F2; discriminate].
      destruct (eff4 p); [discriminate|]. destruct (K4 eq_refl) as [_ K]. lia. }
    unfold transfer. destruct (e_ok (E (tm s1))) eqn:OK; cbn [orb].
    + rewrite X by auto. cbn [bind]. eexists _, _. split; [reflexivity|]. split; [exact S1|]. split; [exact C1|].
      split; [reflexivity|]. auto.
    + assert (reliable E -> False) as Q by (intros H; now rewrite H in OK).
      destruct (e_done (E (tm s1))).
      * rewrite X by auto. cbn [bind]. eexists _, _. split; [reflexivity|]. split; [exact S1|]. split; [exact C1|].
        split; [exact I|]. intros RE. destruct (Q RE).
      * eexists _, _. split; [reflexivity|]. split; [exact S1|]. split; [exact C1|]. split; [exact I|]. intros RE. destruct (Q RE).
  - eexists _, _. split; [reflexivity|]. split; [auto|]. split; [exact C1|]. split; [exact I|]. intros _ B. rewrite B in W. discriminate.
  - eexists _, _. split; [reflexivity|]. split; [auto|]. split; [exact C1|]. split; [exact I|].
    intros RE. rewrite RE in W. discriminate.
Qed.

(** An erase command that turns the cells into [m']. *)
Lemma erase_with_ok : forall p E x m' s, good p s ->
  (forall s1 e c, same s s1 -> (forall y, y = x s1 \/ (x_cmd y = x_cmd (x s1) /\ x_addr y = x_addr (x s1) /\ x_four y = x_four (x s1)) ->
     cells c = cells (cp s) -> ext c = ext (cp s) -> busy c = O -> wel c = true ->
     exec p e y c = Ret ([], with_cells m' (e_delay e) c))) ->
  exists r s', erase_with p E x s = Ret (r, s') /\ same s s' /\
    match r with
    | Done => cells (cp s') = m'
    | Err Transfer => cells (cp s') = cells (cp s) \/ cells (cp s') = m'
    | Err _ => cells (cp s') = cells (cp s)
    | _ => False
    end /\
    (reliable E -> busy (cp s) = O -> busy (cp s') = O /\ r = Done).
Proof.
  intros p E x m' s G X. unfold erase_with.
  destruct (is_wip_ok p E s) as (w & s1 & R & S1 & C1 & _ & _ & W). rewrite R. cbn [bind]. destruct w.
  2:{ eexists _, _. split; [reflexivity|]. split; [auto|]. split; [exact C1|]. intros _ B. rewrite B in W. discriminate. }
  2:{ eexists _, _. split; [reflexivity|]. split; [auto|]. split; [now left|]. intros RE. rewrite RE in W. discriminate. }
  destruct W as [W0 W].
  destruct (write_enable_ok p E s1 W) as (ok1 & s2 & R2 & S2 & C2 & B2 & W2 & O2). rewrite R2. cbn [bind].
  assert (same s s2) as SS by (eapply same_trans; eauto).
  destruct ok1; cbn [negb].
  2:{ eexists _, _. split; [reflexivity|]. split; [auto|]. split; [left; congruence|]. intros RE. discriminate (O2 RE). }
  unfold transfer. assert (cells (cp s2) = cells (cp s)) as CC by congruence.
  destruct (e_ok (E (tm s2))) eqn:OK; cbn [orb].
  - rewrite (X s2 _ (cp s2) SS (x s2)) by (auto; destruct SS; auto). cbn [bind negb].
    match goal with |- context [wait p E ?y] => set (s3 := y) end.
    destruct (wait_ok p E s3) as (ok & s4 & R4 & S4 & C4 & B4 & O4). rewrite R4. cbn [bind].
    eexists _, _. split; [reflexivity|]. split.
    { eapply same_trans; [exact SS|]. eapply same_trans; [|exact S4]. unfold s3, same, with_cells. cbn. auto. }
    split; [destruct ok; [exact C4|right; exact C4]|]. intros RE _. rewrite (O4 RE). auto.
  - assert (reliable E -> False) as Q by (intros H; now rewrite H in OK).
    destruct (e_done (E (tm s2))).
    + match goal with |- context [exec p ?e ?y (cp s2)] => rewrite (X s2 e (cp s2) SS y) by (auto; destruct SS; auto) end.
      cbn [bind negb]. eexists _, _. split; [reflexivity|].
      split; [unfold same, with_cells in *; cbn; auto|]. split; [now right|]. intros RE. destruct (Q RE).
    + cbn [bind negb]. eexists _, _. split; [reflexivity|]. split; [exact SS|]. split; [now left|]. intros RE. destruct (Q RE).
Qed.

Lemma base_again : forall k a, k <> 0 -> a / k * k / k * k = a / k * k.
Proof. intros. rewrite N.div_mul by auto. reflexivity. Qed.

Lemma sector_erase_ok : forall p E a s, good p s ->
  exists r s', sector_erase p E a s = Ret (r, s') /\ same s s' /\
    match r with
    | Done => cells (cp s') = nor_erase (cells (cp s)) (a / 4096 * 4096) 4096
    | Err Transfer => cells (cp s') = cells (cp s) \/ cells (cp s') = nor_erase (cells (cp s)) (a / 4096 * 4096) 4096
    | Err _ => cells (cp s') = cells (cp s)
    | _ => False
    end /\ (r <> Err AddressRange -> a / 4096 * 4096 < size (dv s)) /\
    (reliable E -> busy (cp s) = O -> busy (cp s') = O /\ r = if size (dv s) <=? a / 4096 * 4096 then Err AddressRange else Done).
Proof.
  intros p E a s G. unfold sector_erase, erase_region. destruct (size (dv s) <=? a / 4096 * 4096) eqn:E1.
  - eexists _, _. split; [reflexivity|]. split; [apply same_refl|]. split; [reflexivity|]. split; [contradiction|auto].
  - destruct (erase_with_ok p E (fun s => {| x_cmd := Sector (native (dv s)); x_addr := a / 4096 * 4096; x_four := four (dv s);
                                   x_data := []; x_len := 0 |}) (nor_erase (cells (cp s)) (a / 4096 * 4096) 4096) s G) as (r & s' & R & S & M & Q).
    + intros s1 e c SS y Hy C X B W.
      assert (x_cmd y = Sector (native (dv s1)) /\ x_addr y = a / 4096 * 4096 /\ x_four y = four (dv s1)) as (Y1 & Y2 & Y3)
        by (destruct Hy as [->|Hy]; auto).
      unfold exec. rewrite Y1, Y2, Y3, B, W. cbn [Nat.eqb negb].
      assert (a / 4096 * 4096 < size (dv s1)) as AL by (destruct SS as [-> _]; lia).
      rewrite (decode_ok p s1); auto; [|eapply good_same; eauto|destruct SS; congruence].
      rewrite base_again by lia. now rewrite C.
    + eexists _, _. split; [exact R|]. split; [exact S|]. split; [exact M|]. split; [intros _; lia|exact Q].
Qed.

Lemma block_erase_ok : forall p E a s, good p s ->
  exists r s', block_erase p E a s = Ret (r, s') /\ same s s' /\
    match r with
    | Done => cells (cp s') = nor_erase (cells (cp s)) (a / 65536 * 65536) 65536
    | Err Transfer => cells (cp s') = cells (cp s) \/ cells (cp s') = nor_erase (cells (cp s)) (a / 65536 * 65536) 65536
    | Err _ => cells (cp s') = cells (cp s)
    | _ => False
    end /\ (r <> Err AddressRange -> a / 65536 * 65536 < size (dv s)) /\
    (reliable E -> busy (cp s) = O -> busy (cp s') = O /\ r = if size (dv s) <=? a / 65536 * 65536 then Err AddressRange else Done).
Proof.
  intros p E a s G. unfold block_erase, erase_region. destruct (size (dv s) <=? a / 65536 * 65536) eqn:E1.
  - eexists _, _. split; [reflexivity|]. split; [apply same_refl|]. split; [reflexivity|]. split; [contradiction|auto].
  - destruct (erase_with_ok p E (fun s => {| x_cmd := Block (native (dv s)); x_addr := a / 65536 * 65536; x_four := four (dv s);
                                   x_data := []; x_len := 0 |}) (nor_erase (cells (cp s)) (a / 65536 * 65536) 65536) s G) as (r & s' & R & S & M & Q).
    + intros s1 e c SS y Hy C X B W.
      assert (x_cmd y = Block (native (dv s1)) /\ x_addr y = a / 65536 * 65536 /\ x_four y = four (dv s1)) as (Y1 & Y2 & Y3)
        by (destruct Hy as [->|Hy]; auto).
      unfold exec. rewrite Y1, Y2, Y3, B, W. cbn [Nat.eqb negb].
      assert (a / 65536 * 65536 < size (dv s1)) as AL by (destruct SS as [-> _]; lia).
      rewrite (decode_ok p s1); auto; [|eapply good_same; eauto|destruct SS; congruence].
      rewrite base_again by lia. now rewrite C.
    + eexists _, _. split; [exact R|]. split; [exact S|]. split; [exact M|]. split; [intros _; lia|exact Q].
Qed.

Lemma chip_erase_ok : forall p E s, good p s ->
  exists r s', chip_erase p E s = Ret (r, s') /\ same s s' /\
    match r with
    | Done => cells (cp s') = nor_erase (cells (cp s)) 0 (size (dv s))
    | Err Transfer => cells (cp s') = cells (cp s) \/ cells (cp s') = nor_erase (cells (cp s)) 0 (size (dv s))
    | Err _ => cells (cp s') = cells (cp s)
    | _ => False
    end /\
    (reliable E -> busy (cp s) = O -> busy (cp s') = O /\ r = Done).
Proof.
  intros p E s G. unfold chip_erase. apply erase_with_ok; auto.
  intros s1 e c SS y Hy C X B W.
  assert (x_cmd y = ChipErase) as Y1 by (destruct Hy as [->|Hy]; [reflexivity|apply Hy]).
  unfold exec. rewrite Y1, B, W. cbn [Nat.eqb negb]. rewrite C. destruct G as (_ & -> & _). reflexivity.
Qed.

Lemma set_mode_ok : forall p E b s, good p s ->
  exists r s', set_mode p E b s = Ret (r, s') /\ good p s' /\ cells (cp s') = cells (cp s) /\ size (dv s') = size (dv s) /\
    busy (cp s') = busy (cp s).
Proof.
  intros p E b s G. unfold set_mode. pose proof G as (C & S & C3 & C4 & Nv & H & H4 & M3 & M4).
  destruct (supports (dv s) b) eqn:SU; [|eexists _, _; split; [reflexivity|]; auto|eexists _, _; split; [reflexivity|]; auto].
  assert (both p = true) as BO.
  { unfold supports in SU. rewrite H, C3, C4 in SU. unfold both. destruct C as (_ & C2 & _).
    destruct (eff3 p), (eff4 p), (sw p), b; cbn in *; congruence. }
  assert (forall x s1, (x = simple Wren \/ x = simple En4b \/ x = simple Ex4b) -> good p s1 ->
    exists ok r s2, transfer p E x s1 = Ret (ok, r, s2) /\ good p s2 /\ cells (cp s2) = cells (cp s1) /\ dv s2 = dv s1 /\ busy (cp s2) = busy (cp s1)) as T.
  { intros x s1 Hx G1. unfold transfer.
    assert (forall c e y, x_cmd y = x_cmd x -> consistent p c -> exists r c', exec p e y c = Ret (r, c') /\ cells c' = cells c /\ busy c' = busy c /\ consistent p c') as X.
    { intros c e y Hy Cc. unfold exec. rewrite Hy.
      destruct Hx as [->|[->| ->]]; cbn [simple x_cmd]; (destruct (Nat.eqb (busy c) 0); cbn [negb]; [|eexists _, _; split; [reflexivity|]; auto]).
      - eexists _, _. split; [reflexivity|]. cbn. auto.
      - destruct (switchable p && _) eqn:SW; eexists _, _; (split; [reflexivity|]); cbn; auto. split; [auto|]. split; [auto|].
        unfold consistent in *. cbn. unfold both in BO. destruct (eff3 p), (eff4 p); try discriminate. intuition discriminate.
      - destruct (switchable p && _) eqn:SW; eexists _, _; (split; [reflexivity|]); cbn; auto. split; [auto|]. split; [auto|].
        unfold consistent in *. cbn. unfold both in BO. destruct (eff3 p), (eff4 p); try discriminate. intuition discriminate. }
    destruct (e_ok (E (tm s1)) || e_done (E (tm s1))).
    - match goal with |- context [exec p ?e ?y (cp s1)] => destruct (X (cp s1) e y) as (r & c' & -> & X1 & X2 & X3) end.
      { destruct (e_ok _); reflexivity. }
      { apply G1. }
      cbn [bind]. eexists _, _, _. split; [reflexivity|]. cbn [dv cp]. split; [|auto]. unfold good in *. cbn [dv cp]. intuition.
    - eexists _, _, _. split; [reflexivity|]. cbn [dv cp]. auto. }
  assert (exists ok1 s1, match how (dv s) with CommandWren => write_enable p E s | _ => Ret (true, s) end = Ret (ok1, s1) /\
    good p s1 /\ cells (cp s1) = cells (cp s) /\ dv s1 = dv s /\ busy (cp s1) = busy (cp s)) as (ok1 & s1 & R1 & G1 & X1 & D1 & B1).
  { destruct (T (simple Wren) s (or_introl eq_refl) G) as (ok & r & s2 & R & T1 & T2 & T3 & T4).
    unfold write_enable. rewrite R. cbn [bind]. destruct (how (dv s)); eexists _, _; (split; [reflexivity|]); auto. }
  rewrite R1. cbn [bind]. destruct ok1; cbn [negb]; [|eexists _, _; split; [reflexivity|]; rewrite D1; auto].
  destruct (T (simple (if b then En4b else Ex4b)) s1) as (ok & r & s2 & R & T1 & T2 & T3 & T4); [destruct b; auto|auto|].
  rewrite R. cbn [bind]. destruct ok; eexists _, _; (split; [reflexivity|]); cbn [cp dv size].
  - split; [|split; [congruence|split; [congruence|congruence]]]. unfold good in *. cbn. rewrite T3, D1 in *. unfold both in BO.
    destruct (eff3 p), (eff4 p); try discriminate. intuition discriminate.
  - split; [auto|]. rewrite T3, D1. split; [congruence|split; [congruence|congruence]].
Qed.
