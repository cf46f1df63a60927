(** Every request preserves the invariant of the firmware updater. *)
From Coq Require Import List NArith ZArith Lia Bool Arith ZifyBool ZifyNat ZifyN.
From Verif Require Import Base Flash_Base FlashUtil_Model FlashUtil_Proofs FlashUpdater_Model FlashUpdater_Proofs
  FwUpdate_Model FwUpdate_Spec FwUpdate_Flash_Proofs FwUpdate_Proofs FwUpdate_History_Proofs.
Import ListNotations.
Local Open Scope N_scope.

Section Run.
Variable fmt : image -> N -> option fwinfo.
Variable hash : nat -> list N -> list N.
Variable c : fcfg.
Variable oracle : nat -> env.
Hypothesis Hfmt : image_format fmt (c_size c - c_off c).
Hypothesis Hlay : layout c.
Hypothesis Hpage : c_page_fails c = false.

Notation inv := (inv fmt c).
Notation written := (written c).

(** Checking the recovery image. *)
Lemma validate_spec : forall s s' r, bytes_img (s_mem s) -> upd_ok c (s_upd s) ->
  (forall rr, c_recovery c = Some rr -> good fmt c (s_mem s) (s_rev s) (c_active c)) ->
  validate_recovery fmt hash c oracle s = (s', r) ->
  inv s' /\ s_mem s' = s_mem s /\ s_rev s' = s_rev s /\ s_applied s' = s_applied s.
Proof.
  intros s s' r B U G H. unfold validate_recovery in H. destruct (c_recovery c) as [rr|] eqn:Hr.
  2:{ unfold ret in H. injection H as <- <-. split; [split; [auto|split; [auto|]]|auto]. intros r' Q. congruence. }
  unfold try_ in H. destruct (load_and_verify fmt hash c oracle rr false true false false true s) as [s1 v] eqn:E.
  apply load_and_verify_spec in E. destruct E as ((C1 & C2 & C3 & C4 & C5 & C6 & C7) & M & V).
  assert (X: s_mem s' = s_mem s1 /\ s_rev s' = s_rev s1 /\ s_applied s' = s_applied s1 /\ s_upd s' = s_upd s1 /\
    (s_bad s' = true \/ exists n z, v = Ok (n, z))).
  { destruct v as [[n z]|e]; unfold bind, set_bad, set_rrev, ret in H; [destruct z|]; injection H as <- <-; cbn; eauto 10. }
  destruct X as (X1 & X2 & X3 & X4 & X5).
  split; [|split; [congruence|split; [congruence|congruence]]].
  split; [now rewrite X1, M|]. split; [rewrite X4, C4; auto|]. intros r' Q. assert (r' = rr) by congruence. subst r'.
  rewrite X1, X2, M, C1. split; [|intros _; eauto]. intros Eb. destruct X5 as [X5|(n & z & ->)]; [congruence|].
  destruct (V n z eq_refl) as (i & I1 & _ & I3 & _). now apply (good_of fmt c _ _ i).
Qed.

(** A revocation request. *)
Lemma run_revocation_spec : forall s s' r, stable_manifest c -> inv s -> run_revocation fmt hash c oracle s = (s', r) ->
  inv s' /\ s_applied s' = s_applied s /\
  only_in (c_size c) (opt (c_recovery c) ++ opt (c_backup c) ++ opt (c_rec_backup c)) (s_mem s) (s_mem s') /\
  (s_rev s' = s_rev s \/
   exists i n k, fmt (s_mem s) (c_active c + c_off c) = Some i /\ i_size i = Some n /\ i_manifest i = Some k /\
     s_rev s < k /\ s_rev s' = k /\
     forall rr, c_recovery c = Some rr -> holds c (s_mem s') rr n = holds c (s_mem s) (c_active c) n) /\
  (r = Ok tt -> exists i n k, fmt (s_mem s) (c_active c + c_off c) = Some i /\ i_size i = Some n /\ i_manifest i = Some k /\
     s_rev s' = k /\ forall rr, c_recovery c = Some rr -> s_bad s' = false).
Proof.
  intros s s' r ST I H. unfold run_revocation in H. unfold bind at 1, get in H.
  apply bind_cases in H. destruct H as [(s1 & [n z] & H1 & H)|(e & H1 & ->)].
  2:{ apply load_and_verify_spec in H1. destruct H1 as (C & M & _). split; [now apply (inv_calm fmt c s)|]. rewrite M.
      destruct C as (C1 & C2 & C3 & C4 & C5 & C6 & C7). split; [auto|]. split; [intros x _; reflexivity|]. split; [auto|discriminate]. }
  apply load_and_verify_spec in H1. destruct H1 as (C & M & V). destruct (V n z eq_refl) as (i & I1 & I2 & I3 & I4 & _).
  specialize (I4 eq_refl). assert (J: inv s1) by (now apply (inv_calm fmt c s)). destruct C as (C1 & C2 & C3 & C4 & C5 & C6 & C7).
  cbn [fst snd] in H.
  apply (process_spec fmt c oracle Hfmt Hlay Hpage (c_active c) n i) in H; auto; try (rewrite ?M, ?C1; auto; fail); [|discriminate].
  destruct H as (E1 & E2 & E3 & E4 & E5 & E6). rewrite M, C1 in *. split; [auto|]. split; [congruence|]. split; [auto|]. split.
  - destruct E5 as [E5|((k & Y1 & Y2 & Y3) & E5)]; [auto|]. right. exists i, n, k. split; [auto|]. split; [auto|]. split; [auto|]. split; [auto|].
    split; [auto|]. intros rr Hr. destruct (E5 rr Hr) as (_ & _ & Z & _). now apply Z.
  - intros Q. destruct (E6 Q) as (Y1 & Y2 & Y3 & _). destruct (i_manifest i) as [k|] eqn:K; [|congruence].
    exists i, n, k. split; [auto|]. split; [auto|]. split; [auto|]. split.
    + specialize (Y1 k eq_refl). destruct E5 as [E5|((k' & Z1 & Z2 & Z3) & _)]; [|congruence].
      apply allowed_good in I3. pose proof (proj2 I3 k K). lia.
    + intros rr Hr. apply Y3. congruence.
Qed.

Lemma matches_inv : forall s s' r, inv s -> recovery_matches fmt c oracle s = (s', r) ->
  inv s' /\ s_mem s' = s_mem s /\ s_rev s' = s_rev s /\ s_applied s' = s_applied s /\
  (s_bad s = false -> s_bad s' = false).
Proof.
  intros s s' r (B & U & I) H. apply matches_spec in H. destruct H as (M & R & U' & A & H).
  split; [|split; [auto|split; [auto|split; [auto|]]]].
  - split; [now rewrite M|]. split; [now rewrite U'|]. intros rr Hr. rewrite M, R.
    destruct H as [(E & _)|(_ & E & r' & i & n & Hr' & I1 & I2 & I3 & _)].
    + rewrite E. now apply I.
    + rewrite E. split; [|discriminate]. intros _. assert (r' = rr) by congruence. subst r'.
      destruct (s_bad s) eqn:Eb; [|now apply I].
      apply (good_copy fmt c Hfmt (s_mem s) _ _ (c_active c)); [now apply (I rr)|].
      intros j k J1 J2. assert (j = i) by congruence. subst j. assert (k = n) by congruence. now subst k.
  - intros E. destruct H as [(E' & _)|(_ & E' & _)]; congruence.
Qed.

Lemma restore_request_spec : forall s s' r, inv s -> s_bad s = false -> restore_active_request fmt hash c oracle s = (s', r) ->
  inv s' /\ s_rev s' = s_rev s /\ only_in (c_size c) [c_active c] (s_mem s) (s_mem s') /\ s_applied s' = s_applied s.
Proof.
  intros s s' r I Hb H. unfold restore_active_request, try_ in H.
  destruct (recovery_matches fmt c oracle s) as [s1 q] eqn:E. apply matches_inv in E; auto. destruct E as (E1 & E2 & E3 & E4 & E5).
  destruct (restore_active fmt hash c oracle s1) as [s2 q2] eqn:E6.
  assert (X: s' = s1 \/ s' = s2).
  { unfold ret in H. destruct q as [[]|e]; rewrite ?E6 in H; injection H as <- <-; auto. }
  apply restore_active_spec in E6; auto. destruct E6 as (F1 & F2 & F3 & (_ & _ & _ & _ & _ & _ & F4) & _). rewrite E2 in F3.
  destruct X as [-> | ->].
  - split; [auto|]. split; [auto|]. split; [rewrite E2; intros x _; reflexivity|auto].
  - split; [auto|]. split; [congruence|]. split; [auto|congruence].
Qed.

(** Staging requests stay inside the staging region. *)
Lemma staged_inv : forall s s', inv s -> bytes_img (s_mem s') -> upd_ok c (s_upd s') -> s_rev s' = s_rev s -> s_bad s' = s_bad s ->
  outside (c_staging c) (c_size c) (s_mem s) (s_mem s') -> inv s'.
Proof.
  intros s s' (B & U & I) B' U' R Eb O. split; [auto|]. split; [auto|]. intros rr Hr. rewrite R, Eb.
  assert (K: forall a, apart (c_size c) a (c_staging c) -> good fmt c (s_mem s) (s_rev s) a -> good fmt c (s_mem s') (s_rev s) a).
  { intros a A G. apply (good_same fmt c Hfmt Hlay (s_mem s)); auto. intros x Hx. apply O. unfold apart in A. lia. }
  destruct (lay_other c Hlay rr (or_intror (or_intror Hr))) as (L1 & L2 & L3).
  split; intros E; apply K; auto; try (now apply (I rr)). apply (lay_as c Hlay).
Qed.

Lemma prepare_inv : forall n s s' r, inv s -> prepare_staging c oracle n s = (s', r) ->
  inv s' /\ s_rev s' = s_rev s /\ s_bad s' = s_bad s /\ s_applied s' = s_applied s /\ outside (c_staging c) (c_size c) (s_mem s) (s_mem s').
Proof.
  intros n s s' r I H. pose proof I as (B & U & _). unfold prepare_staging in H.
  apply bind_cases in H. destruct H as [(s1 & [] & H1 & H)|(e & H1 & ->)].
  2:{ apply call_spec in H1. destruct H1 as (C & M & _). apply quiet_calm in C. split; [now apply (inv_calm fmt c s)|]. rewrite M.
      destruct C as (C1 & C2 & C3 & C4 & C5 & C6 & C7). auto using outside_refl. }
  apply call_spec in H1. destruct H1 as (C & M & _). apply quiet_calm in C. destruct C as (C1 & C2 & C3 & C4 & C5 & C6 & C7).
  unfold bind at 1, ask in H. unfold bind at 1, get in H. unfold bind at 1, get in H. cbn [s_upd s_mem s_tick] in H. rewrite C4, M in H.
  set (e := oracle (s_tick s1)) in *. destruct U as (U1 & U2 & U3).
  destruct (prepare_for_update (e_read e) (e_erase e) (c_blk c) (s_upd s) (s_mem s) n) as [[u' m'] q] eqn:P.
  set (m2 := settle e (c_blk c) (u_base (s_upd s)) (if u_max (s_upd s) <? n then 0 else n) m' (match q with UFlash x => x | _ => FuOk end)) in *.
  assert (X: s_mem s' = m2 /\ s_upd s' = u' /\ s_rev s' = s_rev s /\ s_bad s' = s_bad s /\ s_applied s' = s_applied s).
  { unfold bind, set_mem, set_upd, clear_digest, bind, set_digest, set_len, ret, fail in H. cbn in H.
    destruct q; injection H as <- <-; cbn; auto. }
  destruct X as (X1 & X2 & X3 & X4 & X5). pose proof (lay_staging c Hlay) as (L1 & L2). pose proof (lay_off c Hlay) as L3.
  assert (Q: bytes_img m' /\ upd_ok c u' /\ outside (c_staging c) (c_size c) (s_mem s) m').
  { unfold prepare_for_update, upd_prepare in P. destruct (N.ltb_spec (u_max (s_upd s)) n) as [Lt|Ge].
    { injection P as <- <- <-. split; [auto|]. split; [now split|apply outside_refl]. }
    assert (Z: upd_ok c (mk_upd (u_base (s_upd s)) (u_max (s_upd s)) (Z.of_N n) 0)).
    { split; [auto|]. split; [auto|]. cbn. lia. }
    destruct (N.eqb_spec n 0) as [->|Hn].
    { injection P as <- <- <-. split; [auto|]. split; [auto|apply outside_refl]. }
    pose proof (erase_and_verify_out (e_read e) (e_erase e) (c_blk c) (lay_blk c Hlay) (s_mem s) (u_base (s_upd s)) (N.to_nat n)) as EV.
    pose proof (ev_bytes c (lay_blk c Hlay) e (s_mem s) (u_base (s_upd s)) (N.to_nat n) B) as EB.
    destruct (erase_and_verify (e_read e) (e_erase e) (c_blk c) (s_mem s) (u_base (s_upd s)) (N.to_nat n)) as [m1 r1].
    destruct EV as (EV & _). cbn [fst] in EB. rewrite N2Nat.id in EV.
    assert (OO: outside (c_staging c) (c_size c) (s_mem s) m1).
    { intros x Hx. apply EV. intros y Hy E'. apply Hx.
      apply (same_block_in (c_blk c) (c_staging c) (c_size c) (u_base (s_upd s)) n x (lay_blk c Hlay) L1 (lay_size c Hlay)); [lia|lia|eauto]. }
    destruct r1; injection P as <- <- <-; (split; [auto|]; split; [|auto]); auto; now split. }
  destruct Q as (Q1 & Q2 & Q3).
  assert (O2: outside (c_staging c) (c_size c) (s_mem s) m2).
  { apply settle_outside; auto using (lay_blk c Hlay), (lay_size c Hlay); [lia|]. destruct (N.ltb_spec (u_max (s_upd s)) n); lia. }
  assert (O2': outside (c_staging c) (c_size c) (s_mem s) (s_mem s')) by now rewrite X1.
  split; [|auto]. apply (staged_inv s); auto; [|congruence]. rewrite X1. now apply bytes_settle.
Qed.

Lemma write_inv : forall d s s' r, inv s -> N.of_nat (length d) + c_size c < 2 ^ 32 -> write_staging c oracle d s = (s', r) ->
  inv s' /\ s_rev s' = s_rev s /\ s_bad s' = s_bad s /\ s_applied s' = s_applied s /\ outside (c_staging c) (c_size c) (s_mem s) (s_mem s').
Proof.
  intros d s s' r I Hd H. pose proof I as (B & (U1 & U2 & U3) & _). unfold write_staging in H. unfold bind at 1, get in H.
  destruct (c_need_digest c && _).
  { unfold fail in H. injection H as <- <-. auto using outside_refl. }
  unfold bind at 1, ask in H. unfold bind at 1, get in H. unfold bind at 1, get in H. cbn [s_upd s_mem s_tick] in H.
  pose proof (lay_staging c Hlay) as (L1 & L2). pose proof (lay_off c Hlay) as L3.
  set (e := oracle (s_tick s)) in *.
  pose proof (write_spec (e_write e) (s_upd s) (s_mem s) d ltac:(lia) ltac:(lia) ltac:(lia)) as W.
  destruct (upd_write (e_write e) (s_upd s) (s_mem s) d) as [[u' m'] q] eqn:P.
  destruct W as (W1 & W2 & _ & W4 & _).
  assert (X: s_mem s' = m' /\ s_upd s' = u' /\ s_rev s' = s_rev s /\ s_bad s' = s_bad s /\ s_applied s' = s_applied s).
  { unfold bind, set_mem, set_upd, ret, fail in H. cbn in H. destruct q; injection H as <- <-; cbn; auto. }
  destruct X as (X1 & X2 & X3 & X4 & X5).
  assert (Q: bytes_img m' /\ u_off u' <= u_max u').
  { unfold upd_write in P. rewrite w32_small in P by lia.
    destruct (N.ltb_spec (u_max (s_upd s)) (u_off (s_upd s) + N.of_nat (length d))) as [Lt|Ge].
    { injection P as <- <- <-. auto. }
    unfold dev_write in P. destruct (e_write e _) as [k|].
    - injection P as <- <- <-. split; [now apply bytes_img_write|]. cbn [u_off u_max]. rewrite w32_small by lia. lia.
    - injection P as <- <- <-. auto. }
  destruct Q as (Q1 & Q2).
  assert (O2: outside (c_staging c) (c_size c) (s_mem s) (s_mem s')).
  { rewrite X1. intros x Hx. apply W4. lia. }
  split; [|auto]. apply (staged_inv s); auto; [congruence|]. rewrite X2. split; [congruence|]. split; [congruence|]. auto.
Qed.

(** What a request may do to the oldest allowed manifest: leave it, or raise it to that of the image in the active and the
    recovery region. *)
Definition rev_step (s s' : fst_) : Prop :=
  s_rev s' = s_rev s \/
  exists i n k, fmt (s_mem s') (c_active c + c_off c) = Some i /\ i_size i = Some n /\ i_manifest i = Some k /\
    s_rev s < k /\ s_rev s' = k /\
    forall rr, c_recovery c = Some rr -> holds c (s_mem s') rr n = holds c (s_mem s') (c_active c) n.

Lemma revocation_step : forall s s' r, stable_manifest c -> inv s -> run_revocation fmt hash c oracle s = (s', r) -> inv s' /\ rev_step s s'.
Proof.
  intros s s' r ST I H. apply run_revocation_spec in H; auto. destruct H as (H1 & _ & H3 & H4 & _). split; [auto|].
  destruct H4 as [H4|(i & n & k & I1 & I2 & I3 & I4 & I5 & I6)]; [now left|]. right. exists i, n, k.
  assert (HA: holds c (s_mem s') (c_active c) n = holds c (s_mem s) (c_active c) n).
  { apply (apart_hold c _ _ _ _ _ H3); [apply (active_apart c Hlay)|]. now apply (size_fits fmt c Hfmt Hlay _ _ i n I1). }
  split; [now apply (fmt_written fmt c Hfmt (s_mem s) _ (c_active c) _ i n)|]. split; [auto|]. split; [auto|]. split; [auto|].
  split; [auto|]. intros rr Hr. rewrite HA. now apply I6.
Qed.

Lemma update_step : forall s s' r, stable_manifest c -> inv s -> run_update fmt hash c oracle s = (s', r) -> inv s' /\ rev_step s s'.
Proof.
  intros s s' r ST I H. apply run_update_spec in H; auto. destruct H as (H1 & _ & H3). split; [auto|].
  destruct H3 as [(_ & H3 & _)|(i & n & AC & [H3|((k & K1 & K2 & K3) & H4 & H5)] & _)]; [now left|now left|]. right.
  destruct AC as (_ & _ & F & SZ & _). cbv zeta in F. exists i, n, k.
  split; [now apply (fmt_written fmt c Hfmt (s_mem s) _ (c_staging c) _ i n)|]. split; [auto|]. split; [auto|]. split; [auto|].
  split; [auto|]. intros rr Hr. rewrite H4. now apply H5.
Qed.

Lemma usable_good : forall m rev a, usable fmt c m rev a = true <-> good fmt c m rev a.
Proof.
  intros m rev a. unfold usable, good. destruct (fmt m (a + c_off c)) as [i|].
  - rewrite allowed_good. split.
    + intros (A & B). exists i. auto.
    + intros (j & E & A & B). injection E as <-. auto.
  - split; [discriminate|]. intros (j & E & _). discriminate.
Qed.

Lemma new_updater_ok : upd_ok c (new_updater c).
Proof.
  clear oracle hash. pose proof (lay_staging c Hlay) as (L1 & L2). pose proof (lay_off c Hlay) as L3.
  unfold new_updater, upd_apply_offset, upd_init. cbn [u_base u_max u_off]. split; cbn [u_base u_max u_off].
  - apply w32_small. lia.
  - split; [|lia]. unfold w32. replace (c_size c + 2 ^ 32 - c_off c) with (c_size c - c_off c + 1 * 2 ^ 32) by lia.
    rewrite N.mod_add by discriminate. apply N.mod_small. lia.
Qed.

(** A boot. *)
Lemma boot_step : forall force skip rv s s' r, stable_manifest c -> bytes_img (s_mem s) ->
  (c_recovery c <> None -> bootable fmt c s) ->
  step fmt hash c oracle s (Boot force skip rv) = (s', r) -> inv s' /\ rev_step s s'.
Proof.
  intros force skip rv s s' r ST B J H. cbn [step] in H. unfold bind at 1, start in H.
  set (s0 := FState (s_mem s) None (s_rev s) (s_tick s) false (-1) (new_updater c) None 0 (s_applied s)) in *.
  unfold handler_prepare in H.
  assert (B0: bytes_img (s_mem s0)) by exact B. assert (U0: upd_ok c (s_upd s0)) by exact new_updater_ok.
  destruct (usable fmt c (s_mem s) (s_rev s) (c_active c)) eqn:US; cbn [negb] in H.
  - apply usable_good in US.
    assert (P: forall s1 q, prepare_for_updates fmt hash c oracle false force skip s0 = (s1, q) ->
      inv s1 /\ s_mem s1 = s_mem s /\ s_rev s1 = s_rev s /\ q = Ok tt).
    { intros s1 q E. unfold prepare_for_updates in E. unfold bind, get in E. change (s_bad s0) with false in E. cbv iota in E.
      destruct force.
      - unfold try_ in E. destruct (recovery_matches fmt c oracle s0) as [s2 q2] eqn:E2. apply matches_spec in E2.
        destruct E2 as (M & R & U' & _ & X). change (s_mem s0) with (s_mem s) in *. change (s_rev s0) with (s_rev s) in *.
        assert (Z: s1 = s2 /\ q2 = Ok true /\ q = Ok tt \/ s1 = fst (set_bad true s2) /\ q = Ok tt).
        { destruct q2 as [[]|e2]; unfold ret, set_bad in E; injection E as <- <-; auto. }
        destruct Z as [(-> & -> & ->)|(-> & ->)].
        + split; [|auto]. split; [now rewrite M|]. split; [rewrite U'; auto|]. intros rr Hr. rewrite M, R.
          destruct X as [(_ & _ & X)|(_ & X & r' & i & n & Hr' & I1 & I2 & I3 & _)]; [rewrite X in Hr by auto; discriminate|].
          rewrite X. split; [|discriminate]. intros _. assert (r' = rr) by congruence. subst r'.
          apply (good_copy fmt c Hfmt (s_mem s) _ _ (c_active c)); auto.
          intros j k J1 J2. assert (j = i) by congruence. subst j. assert (k = n) by congruence. now subst k.
        + split; [|auto]. split; [cbn; now rewrite M|]. split; [cbn; rewrite U'; auto|]. intros rr Hr. cbn [set_bad fst s_mem s_rev s_bad].
          rewrite M, R. split; [discriminate|auto].
      - assert (q = Ok tt).
        { unfold validate_recovery, try_ in E. destruct (c_recovery c); [|unfold ret in E; congruence].
          destruct (load_and_verify _ _ _ _ _ _ _ _ _ _ _) as [t [[? [?|]]|?]]; unfold bind, set_bad, set_rrev, ret in E; congruence. }
        apply validate_spec in E; auto. destruct E as (E1 & E2 & E3 & _). auto. }
    apply bind_cases in H. destruct H as [(s1 & [] & H1 & H)|(e & H1 & ->)].
    2:{ destruct (P _ _ H1) as (_ & _ & _ & X). discriminate. }
    destruct (P _ _ H1) as (P1 & P2 & P3 & _). unfold try_ in H.
    assert (RS: forall t, inv t /\ rev_step s1 t -> inv t /\ rev_step s t).
    { intros t (T1 & T2). split; [auto|]. unfold rev_step in *. now rewrite P3 in T2. }
    apply RS. destruct rv.
    + destruct (run_revocation fmt hash c oracle s1) as [s2 q2] eqn:E. unfold ret in H. injection H as <- <-.
      now apply (revocation_step s1 s2 q2).
    + destruct (restore_recovery fmt hash c oracle s1) as [s2 q2] eqn:E. unfold ret in H. injection H as <- <-.
      apply restore_recovery_spec in E; auto. destruct E as (E1 & E2 & _). split; [auto|]. now left.
  - assert (G: forall rr, c_recovery c = Some rr -> good fmt c (s_mem s) (s_rev s) rr).
    { intros rr Hr. destruct (J ltac:(congruence)) as [G|(r' & Hr' & G)].
      - apply usable_good in G. congruence.
      - assert (r' = rr) by congruence. now subst r'. }
    assert (I0: inv s0). { split; [auto|]. split; [auto|]. intros rr Hr. split; [intros _; now apply G|discriminate]. }
    assert (E: exists q, (if skip then ret tt else try_ (restore_active fmt hash c oracle) (fun _ => ret tt)) s0 = (s', q)).
    { unfold prepare_for_updates in H. unfold bind, set_bad in H.
      change (FState (s_mem s0) (s_fw s0) (s_rev s0) (s_tick s0) false (s_rrev s0) (s_upd s0) (s_digest s0) (s_len s0) (s_applied s0)) with s0 in H.
      destruct skip; unfold try_, ret in *; [injection H as <- <-; eauto|].
      destruct (restore_active fmt hash c oracle s0) as [s1 q]. injection H as <- <-. eauto. }
    destruct E as (q & E). destruct skip; unfold try_, ret in E.
    + injection E as <- <-. split; [auto|]. now left.
    + destruct (restore_active fmt hash c oracle s0) as [s1 q1] eqn:E1. injection E as <- <-.
      apply restore_active_spec in E1; auto. destruct E1 as (E1 & E2 & _). split; [auto|]. now left.
Qed.

(** Every other request. *)
Lemma step_inv : forall s o s' r, stable_manifest c -> inv s -> fair fmt c s o ->
  step fmt hash c oracle s o = (s', r) -> inv s' /\ rev_step s s'.
Proof.
  intros s o s' r ST I Fo H. destruct o as [force skip rv|n|ty d|d| | | | | | | |z].
  - apply (boot_step force skip rv s s' r); auto; [apply I|]. intros Hr. destruct (c_recovery c) as [rr|] eqn:E; [|congruence].
    destruct I as (_ & _ & I). destruct (I rr E) as (I1 & I2). destruct (s_bad s); [left; auto|]. right. exists rr. auto.
  - cbn [step] in H. apply prepare_inv in H; auto. destruct H as (H1 & H2 & _). split; [auto|now left].
  - cbn [step] in H. unfold set_image_digest, bind, get, fail, set_digest in H.
    destruct (_ || _); injection H as <- <-; (split; [exact I|now left]).
  - cbn [step] in H. apply write_inv in H; auto. destruct H as (H1 & H2 & _). split; [auto|now left].
  - cbn [step] in H. now apply update_step in H.
  - cbn [step] in H. apply run_no_revocation_spec in H; auto. destruct H as (H1 & H2 & _). split; [auto|now left].
  - cbn [step] in H. now apply revocation_step in H.
  - cbn [step] in H. apply restore_recovery_spec in H; auto. destruct H as (H1 & H2 & _). split; [auto|now left].
  - cbn [step] in H. apply restore_request_spec in H; auto. destruct H as (H1 & H2 & _). split; [auto|now left].
  - cbn [step] in H. destruct I as (I1 & I2 & I3). apply validate_spec in H; auto. destruct H as (H1 & _ & H2 & _). split; [auto|now left].
  - cbn [step] in H. unfold bind in H. destruct (recovery_matches fmt c oracle s) as [s1 q] eqn:E. apply matches_inv in E; auto.
    assert (s' = s1) as -> by (destruct q; unfold ret in H; congruence). destruct E as (E1 & _ & E2 & _). split; [auto|now left].
  - cbn [step] in H. unfold set_rrev in H. injection H as <- <-. split; [exact I|now left].
Qed.

Lemma run_inv : forall l s, stable_manifest c -> inv s -> fair_run fmt hash c oracle s l -> inv (run fmt hash c oracle s l).
Proof.
  induction l as [|o l IH]; intros s ST I Fl; [auto|]. cbn [run fair_run] in *. destruct Fl as (F1 & F2).
  apply IH; auto. destruct (step fmt hash c oracle s o) as [s' r] eqn:E. now apply (step_inv s o s' r).
Qed.

Lemma inv_bootable : forall s, c_recovery c <> None -> inv s -> bootable fmt c s.
Proof.
  intros s Hr (_ & _ & I). destruct (c_recovery c) as [rr|] eqn:E; [|congruence].
  destruct (I rr eq_refl) as (I1 & I2). destruct (s_bad s); [left; auto|]. right. exists rr. auto.
Qed.

End Run.
