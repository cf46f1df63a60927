(** Histories of driver calls. *)
From Coq Require Import List NArith Lia Bool Arith ZifyBool ZifyNat ZifyN.
From Verif Require Import Base Flash_Base FlashUpdater_Model SpiFlash_Model SpiFlash_Spec SpiFlash_Proofs.
Import ListNotations.
Local Open Scope N_scope.

Lemma read_bound : forall word p E a n s l s', a + N.of_nat n < word -> read word p E a n s = Ret (Data l, s') -> a + N.of_nat n <= size (dv s).
Proof.
  intros word p E a n s l s' L H. unfold read in H. rewrite bounds_ok in H by auto.
  destruct (size (dv s) <=? a) eqn:E1; [discriminate|].
  destruct (size (dv s) <? a + N.of_nat n) eqn:E2; [discriminate|]. lia.
Qed.

(** Every call keeps the driver and the device in step, changes only its target and answers truthfully. *)
Lemma step_ok : forall word p E o s, good p s -> short word o ->
  exists r s', step word p E o s = Ret (r, s') /\ good p s' /\ size (dv s') = size (dv s) /\
    (forall x, ~ target (size (dv s)) o x -> cells (cp s') x = cells (cp s) x) /\
    outcome (size (dv s)) o r (cells (cp s)) (cells (cp s')) /\
    (reliable E -> busy (cp s) = O -> busy (cp s') = O /\ agrees o r (fst (ideal (size (dv s)) o (cells (cp s)))) /\
       forall x, cells (cp s') x = snd (ideal (size (dv s)) o (cells (cp s))) x).
Proof.
  intros word p E o s G SH. destruct o as [a n|a l|a|a| |b|b]; cbn [step short] in *.
  - destruct (read_ok word p E a n s G) as (r & s' & R & S & C & M & Q); [lia|].
    eexists _, _. split; [exact R|]. split; [eapply good_same; eauto|]. split; [destruct S as [-> _]; auto|].
    rewrite C. split; [auto|]. split.
    + destruct r as [|l| |e]; try contradiction.
      * exists a, n. split; [auto|]. split; [auto|]. split; [eapply read_bound; [|exact R]; lia|]. intros x. reflexivity.
      * destruct e; cbn; unfold unchanged; auto.
    + intros RE B. destruct (Q RE B) as [B' ->]. cbn [ideal agrees].
      destruct (size (dv s) <=? a); [auto|]. destruct (size (dv s) <? a + N.of_nat n); auto.
  - destruct (write_ok word p E a l s G) as (r & s' & R & S & M & Q); [lia|].
    eexists _, _. split; [exact R|]. split; [eapply good_same; eauto|]. split; [destruct S as [-> _]; auto|].
    assert (forall k, a + N.of_nat (length l) <= size (dv s) -> progress (cells (cp s)) (cells (cp s')) a l k -> 
      forall x, ~ target (size (dv s)) (OpWrite a l) x -> cells (cp s') x = cells (cp s) x) as T.
    { intros k A [P _] x Hx. cbn [target] in Hx. destruct (P x) as [->| ->]; auto. unfold nor_write, inb.
      replace ((a <=? x) && (x <? a + N.of_nat (length l))) with false by lia. reflexivity. }
    split; [|split].
    + destruct r as [n| | |e]; try contradiction; [eapply T; apply M|]. destruct e; try (intros; now rewrite M); try contradiction.
      eapply T; apply M.
    + destruct r as [n| | |e]; try contradiction.
      * destruct M as (M1 & M2 & M3 & M4). cbn [outcome]. exists a, l. auto.
      * cbn [outcome]. destruct e; try (unfold unchanged; intros; now rewrite M); try contradiction.
        destruct M as (M2 & M3 & M4). cbn [ideal]. intros x. destruct (size (dv s) <=? a) eqn:EA.
        { assert (l = []) as -> by (destruct l; [auto|cbn [length] in M2; lia]).
          left. destruct (M3 x) as [->| ->]; auto. unfold nor_write, inb. cbn [length].
          replace ((a <=? x) && (x <? a + N.of_nat 0)) with false by lia. reflexivity. }
        replace (size (dv s) <? a + N.of_nat (length l)) with false by lia. apply M3.
    + intros RE B. destruct (Q RE B) as [B' ->]. split; [auto|]. cbn [ideal agrees].
      destruct (size (dv s) <=? a); [cbn [fst snd]; split; [auto|]; intros; now rewrite M|].
      destruct (size (dv s) <? a + N.of_nat (length l)); [cbn [fst snd]; split; [auto|]; intros; now rewrite M|].
      cbn [fst snd]. split; [auto|]. destruct M as (M1 & M2 & M3 & M4). intros x.
      destruct (N.lt_ge_cases x (a + N.of_nat (length l))); [apply M4; lia|].
      destruct (M3 x) as [->|]; auto. unfold nor_write, inb.
      replace ((a <=? x) && (x <? a + N.of_nat (length l))) with false by lia. reflexivity.
  - destruct (sector_erase_ok p E a s G) as (r & s' & R & S & M & A & Q).
    eexists _, _. split; [exact R|]. split; [eapply good_same; eauto|]. split; [destruct S as [-> _]; auto|].
    assert (forall x, ~ target (size (dv s)) (OpSector a) x -> a / 4096 * 4096 < size (dv s) ->
      nor_erase (cells (cp s)) (a / 4096 * 4096) 4096 x = cells (cp s) x) as T.
    { intros x Hx HA. cbn [target] in Hx. apply nor_erase_out. unfold inb. lia. }
    cbn [outcome ideal agrees]. split; [|split].
    + intros x Hx. destruct r as [| | |e]; try contradiction; [rewrite M; apply T; auto; apply A; discriminate|].
      destruct e; try contradiction; try (now rewrite M). destruct M as [->| ->]; auto. apply T; auto. apply A; discriminate.
    + destruct r as [| | |e]; try contradiction.
      * cbn [outcome ideal]. assert (a / 4096 * 4096 < size (dv s)) by (apply A; discriminate).
        replace (size (dv s) <=? a / 4096 * 4096) with false by lia. cbn [snd]. intros; now rewrite M.
      * cbn [outcome ideal]. destruct e; try (unfold unchanged; intros; now rewrite M); try contradiction.
        assert (a / 4096 * 4096 < size (dv s)) by (apply A; discriminate). 
        replace (size (dv s) <=? a / 4096 * 4096) with false by lia. cbn [snd]. intros x. destruct M as [->| ->]; auto.
    + intros RE B. destruct (Q RE B) as [B' ->]. split; [auto|].
      destruct (size (dv s) <=? a / 4096 * 4096); cbn [fst snd]; (split; [auto|]); intros; now rewrite M.
  - destruct (block_erase_ok p E a s G) as (r & s' & R & S & M & A & Q).
    eexists _, _. split; [exact R|]. split; [eapply good_same; eauto|]. split; [destruct S as [-> _]; auto|].
    assert (forall x, ~ target (size (dv s)) (OpBlock a) x -> a / 65536 * 65536 < size (dv s) ->
      nor_erase (cells (cp s)) (a / 65536 * 65536) 65536 x = cells (cp s) x) as T.
    { intros x Hx HA. cbn [target] in Hx. apply nor_erase_out. unfold inb. lia. }
    cbn [outcome ideal agrees]. split; [|split].
    + intros x Hx. destruct r as [| | |e]; try contradiction; [rewrite M; apply T; auto; apply A; discriminate|].
      destruct e; try contradiction; try (now rewrite M). destruct M as [->| ->]; auto. apply T; auto. apply A; discriminate.
    + destruct r as [| | |e]; try contradiction.
      * cbn [outcome ideal]. assert (a / 65536 * 65536 < size (dv s)) by (apply A; discriminate).
        replace (size (dv s) <=? a / 65536 * 65536) with false by lia. cbn [snd]. intros; now rewrite M.
      * cbn [outcome ideal]. destruct e; try (unfold unchanged; intros; now rewrite M); try contradiction.
        assert (a / 65536 * 65536 < size (dv s)) by (apply A; discriminate). 
        replace (size (dv s) <=? a / 65536 * 65536) with false by lia. cbn [snd]. intros x. destruct M as [->| ->]; auto.
    + intros RE B. destruct (Q RE B) as [B' ->]. split; [auto|].
      destruct (size (dv s) <=? a / 65536 * 65536); cbn [fst snd]; (split; [auto|]); intros; now rewrite M.
  - destruct (chip_erase_ok p E s G) as (r & s' & R & S & M & Q).
    eexists _, _. split; [exact R|]. split; [eapply good_same; eauto|]. split; [destruct S as [-> _]; auto|].
    assert (forall x, ~ target (size (dv s)) OpChip x -> nor_erase (cells (cp s)) 0 (size (dv s)) x = cells (cp s) x) as T.
    { intros x Hx. cbn [target] in Hx. apply nor_erase_out. unfold inb. lia. }
    cbn [outcome ideal agrees]. split; [|split].
    + intros x Hx. destruct r as [| | |e]; try contradiction; [rewrite M; apply T; auto|].
      destruct e; try contradiction; try (now rewrite M). destruct M as [->| ->]; auto.
    + destruct r as [| | |e]; try contradiction.
      * cbn [outcome ideal snd]. intros; now rewrite M.
      * cbn [outcome ideal]. destruct e; try (unfold unchanged; intros; now rewrite M); try contradiction.
        cbn [snd]. intros x. destruct M as [->| ->]; auto.
    + intros RE B. destruct (Q RE B) as [B' ->]. split; [auto|]. cbn [fst snd]. split; [auto|]. intros; now rewrite M.
  - destruct (set_mode_ok p E b s G) as (r & s' & R & G' & C & S & B).
    eexists _, _. split; [exact R|]. split; [auto|]. split; [auto|]. rewrite C. split; [auto|]. split.
    + unfold set_mode in R. cbn [ideal outcome].
      assert (r = Done \/ exists e, r = Err e) as [->|[e ->]].
      { destruct (supports (dv s) b); [|injection R as <- _; auto|injection R as <- _; eauto].
        destruct (match how (dv s) with CommandWren => write_enable p E s | _ => Ret (true, s) end) as [[ok s1]|]; [|discriminate].
        cbn [bind] in R. destruct ok; cbn [negb] in R; [|injection R as <- _; eauto].
        destruct (transfer p E (simple (if b then En4b else Ex4b)) s1) as [[[ok x] s2]|]; [|discriminate].
        cbn [bind] in R. destruct ok; injection R as <- _; eauto. }
      * intros x. reflexivity.
      * destruct e; cbn; unfold unchanged; auto.
    + intros _ B0. split; [congruence|]. cbn. auto.
  - eexists _, _. split; [reflexivity|]. cbn [dv cp].
    assert (cells (if switchable p then {| cells := cells (cp s); wel := wel (cp s); busy := busy (cp s); ext := b |} else cp s) = cells (cp s) /\
      busy (if switchable p then {| cells := cells (cp s); wel := wel (cp s); busy := busy (cp s); ext := b |} else cp s) = busy (cp s)) as [C B]
      by (destruct (switchable p); auto).
    rewrite C, B. split.
    + unfold good, consistent in *. cbn [dv cp]. destruct (switchable p) eqn:SW; [|exact G]. cbn [ext].
      unfold switchable in SW. apply andb_true_iff in SW. destruct SW as [SW _]. unfold both in *.
      destruct (eff3 p), (eff4 p); try discriminate. intuition discriminate.
    + split; [auto|]. split; [auto|]. split; [cbn; auto|]. cbn. auto.
Qed.

Lemma ideal_ext : forall sz o m m', (forall x, m x = m' x) ->
  fst (ideal sz o m) = fst (ideal sz o m') /\ forall x, snd (ideal sz o m) x = snd (ideal sz o m') x.
Proof.
  intros sz o m m' H. destruct o as [a n|a l|a|a| |b|b]; cbn [ideal].
  - destruct (sz <=? a); [auto|]. destruct (sz <? a + N.of_nat n); [auto|]. cbn [fst snd]. split; [|auto].
    f_equal. apply img_read_ext. intros; apply H.
  - destruct (sz <=? a); [auto|]. destruct (sz <? a + N.of_nat (length l)); [auto|]. cbn [fst snd]. split; [auto|].
    intros x. unfold nor_write. now rewrite H.
  - destruct (sz <=? a / 4096 * 4096); [auto|]. cbn [fst snd]. split; [auto|]. intros x. unfold nor_erase. now rewrite H.
  - destruct (sz <=? a / 65536 * 65536); [auto|]. cbn [fst snd]. split; [auto|]. intros x. unfold nor_erase. now rewrite H.
  - cbn [fst snd]. split; [auto|]. intros x. unfold nor_erase. now rewrite H.
  - auto.
  - auto.
Qed.

Lemma run_good : forall word p E ops s, good p s -> Forall (short word) ops ->
  exists rs s', run word p E ops s = Ret (rs, s') /\ good p s' /\ size (dv s') = size (dv s) /\
    (forall x, (forall o, In o ops -> ~ target (size (dv s)) o x) -> cells (cp s') x = cells (cp s) x).
Proof.
  induction ops as [|o t IH]; intros s G F; cbn [run].
  - eexists _, _. split; [reflexivity|]. auto.
  - inversion F; subst. destruct (step_ok word p E o s G) as (r & s1 & R & G1 & S1 & T1 & _); [auto|]. rewrite R. cbn [bind].
    destruct (IH s1 G1) as (rs & s2 & R2 & G2 & S2 & T2); [auto|]. rewrite R2. cbn [bind]. eexists _, _. split; [reflexivity|].
    split; [auto|]. split; [congruence|]. intros x Hx. rewrite T2; [apply T1, Hx; now left|]. intros o' I'. rewrite S1. apply Hx. now right.
Qed.

Lemma run_ideal : forall word p E, reliable E -> forall ops s m, good p s -> busy (cp s) = O -> Forall (short word) ops ->
  (forall x, cells (cp s) x = m x) ->
  exists rs s', run word p E ops s = Ret (rs, s') /\ good p s' /\ busy (cp s') = O /\ length rs = length ops /\
    (forall i o r r', nth_error ops i = Some o -> nth_error rs i = Some r ->
       nth_error (fst (ideal_run (size (dv s)) ops m)) i = Some r' -> agrees o r r') /\
    (forall x, cells (cp s') x = snd (ideal_run (size (dv s)) ops m) x).
Proof.
  intros word p E RE. induction ops as [|o t IH]; intros s m G B F M; cbn [run ideal_run].
  - eexists _, _. split; [reflexivity|]. do 3 (split; [auto|]). split; [|auto]. intros [|i] ? ? ? H; discriminate.
  - inversion F; subst. destruct (step_ok word p E o s G) as (r & s1 & R & G1 & S1 & _ & _ & Q); [auto|]. rewrite R. cbn [bind].
    destruct (Q RE B) as (B1 & A1 & C1). destruct (ideal_ext (size (dv s)) o (cells (cp s)) m M) as [X1 X2].
    destruct (ideal (size (dv s)) o m) as [r0 m0] eqn:EI. cbn [fst snd] in X1, X2.
    destruct (IH s1 m0 G1 B1) as (rs & s2 & R2 & G2 & B2 & L2 & N2 & C2); [auto|intros; now rewrite C1|]. rewrite S1 in *.
    rewrite R2. cbn [bind]. destruct (ideal_run (size (dv s)) t m0) as [rs0 m1] eqn:ER. cbn [fst snd] in *.
    eexists _, _. split; [reflexivity|]. split; [exact G2|]. split; [exact B2|]. split; [cbn; now rewrite L2|]. split; [|auto].
    intros [|i] o' q q' H2' H3' H4'; cbn [nth_error] in *; [|eauto].
    injection H2' as <-. injection H3' as <-. injection H4' as <-. now rewrite <- X1.
Qed.

Lemma mode_ok : forall p E b s s', good p s -> reliable E -> busy (cp s) = O -> sw p <> InstructionSet ->
  set_mode p E b s = Ret (Done, s') -> mode4 (dv s') = b /\ ext (cp s') = b.
Proof.
  intros p E b s s' G RE B NI R. pose proof G as (C & S & C3 & C4 & Nv & H & H4 & M3 & M4).
  unfold set_mode, supports in R. rewrite H, C3, C4 in R. destruct C as (C1 & C2 & C5 & C6).
  destruct (eff3 p) eqn:E3, (eff4 p) eqn:E4; cbn in C2; try discriminate.
  - assert (switchable p = true) as SWI by (unfold switchable, both; rewrite E3, E4; destruct (sw p); auto; contradiction).
    destruct (write_enable_ok p E s B) as (ok & s1 & R1 & S1 & X1 & B1 & W1 & O1). rewrite (O1 RE) in *.
    assert (forall s2, busy (cp s2) = O -> (sw p = CommandWren -> wel (cp s2) = true) ->
      exists s3, transfer p E (simple (if b then En4b else Ex4b)) s2 = Ret (true, [], s3) /\ ext (cp s3) = b) as T.
    { intros s2 B2 W2. unfold transfer. rewrite RE. cbn [orb]. unfold exec. rewrite B2, SWI. cbn [Nat.eqb negb andb].
      assert (negb match sw p with CommandWren => true | _ => false end || wel (cp s2) = true) as Q
        by (destruct (sw p); auto; rewrite W2; auto).
      destruct b; cbn [simple x_cmd]; rewrite Q; cbn [bind]; eexists; (split; [reflexivity|]); reflexivity. }
    assert (forall s2 s3, transfer p E (simple (if b then En4b else Ex4b)) s2 = Ret (true, [], s3) -> 
      (sw p = CommandWren /\ s2 = s1 \/ sw p <> CommandWren /\ s2 = s) -> cp s' = cp s3 /\ mode4 (dv s') = b) as U.
    { intros s2 s3 T3 Hs. destruct (sw p); try contradiction; destruct Hs as [[K ->]|[K ->]]; try discriminate; try (now destruct K);
      try rewrite R1 in R; cbn [bind negb] in R; rewrite T3 in R; cbn [bind] in R; injection R as <-; auto. }
    assert (sw p = CommandWren \/ sw p <> CommandWren) as [K|K] by (destruct (sw p); auto; right; discriminate).
    + destruct (T s1 B1) as (s3 & T3 & X3); [auto|]. destruct (U s1 s3 T3) as [-> ->]; auto.
    + destruct (T s B) as (s3 & T3 & X3); [contradiction|]. destruct (U s s3 T3) as [-> ->]; auto.
  - destruct (sw p); destruct b; try discriminate; try contradiction; injection R as <-; split; auto; apply C6; auto.
  - destruct (sw p); destruct b; try discriminate; try contradiction; injection R as <-; split; auto.
Qed.
