(** Requests to the firmware updater, and histories of them. *)
From Coq Require Import List NArith ZArith Lia Bool Arith ZifyBool ZifyNat ZifyN.
From Verif Require Import Base Flash_Base FlashUtil_Model FlashUtil_Proofs FlashUpdater_Model FlashUpdater_Proofs
  FwUpdate_Model FwUpdate_Spec FwUpdate_Flash_Proofs FwUpdate_Proofs.
Import ListNotations.
Local Open Scope N_scope.

Section History.
Variable fmt : image -> N -> option fwinfo.
Variable hash : nat -> list N -> list N.
Variable c : fcfg.
Variable oracle : nat -> env.
Hypothesis Hfmt : image_format fmt (c_size c - c_off c).
Hypothesis Hlay : layout c.
Hypothesis Hpage : c_page_fails c = false.

Notation inv := (inv fmt c).

(** All regions an update may write. *)
Definition written : list N := c_active c :: opt (c_recovery c) ++ opt (c_backup c) ++ opt (c_rec_backup c).

Lemma staging_apart : forall b, In b written -> apart (c_size c) (c_staging c) b.
Proof.
  intros b [<-|H]; [apply apart_sym, (lay_as c Hlay)|]. apply apart_sym. apply (lay_other c Hlay).
  rewrite !in_app_iff in H. destruct (c_recovery c), (c_backup c), (c_rec_backup c); cbn in H; intuition (subst; auto).
Qed.

Lemma apart_hold : forall l m m' a n, only_in (c_size c) l m m' -> (forall b, In b l -> apart (c_size c) a b) ->
  N.of_nat n + c_off c <= c_size c -> holds c m' a n = holds c m a n.
Proof.
  clear Hpage Hfmt Hlay hash fmt oracle. intros l m m' a n O H L. unfold holds. apply img_read_ext. intros k Hk.
  apply (only_in_same c l _ _ a O H). lia.
Qed.

Lemma active_apart : forall b, In b (opt (c_recovery c) ++ opt (c_backup c) ++ opt (c_rec_backup c)) -> apart (c_size c) (c_active c) b.
Proof.
  intros b H. apply apart_sym. apply (lay_other c Hlay).
  rewrite !in_app_iff in H. destruct (c_recovery c), (c_backup c), (c_rec_backup c); cbn in H; intuition (subst; auto).
Qed.

Lemma staged_acceptable : forall s s' n z,
  load_and_verify fmt hash c oracle (c_staging c) true false true true true s = (s', Ok (n, z)) ->
  exists i, acceptable fmt hash c s i n /\ allowed (s_rev s) i = true /\
    revision_of s i = (match z with Some x => x | None => s_rrev s end).
Proof.
  intros s s' n z H. apply load_and_verify_spec in H. destruct H as (_ & _ & H).
  destruct (H n z eq_refl) as (i & I1 & I2 & I3 & I4 & I5 & I6). exists i.
  specialize (I4 eq_refl). specialize (I5 eq_refl). destruct (I6 eq_refl) as (I7 & I8).
  pose proof (proj1 (allowed_good (s_rev s) i) I3) as (V1 & V2). split; [|split; [auto|]].
  - unfold acceptable. cbv zeta. repeat (split; [assumption|]). unfold rev_result in I5.
    destruct (i_header i) as [[x|]|]; [|auto|tauto]. intros R. now apply I5.
  - unfold revision_of. unfold rev_result in I5. destruct (i_header i) as [[x|]|]; [|destruct I5|].
    + destruct I5 as (-> & _). reflexivity.
    + destruct I5 as (-> & _). reflexivity.
Qed.

(** The effect of an update request. *)
Lemma run_update_spec : forall s s' r, stable_manifest c -> inv s -> run_update fmt hash c oracle s = (s', r) ->
  inv s' /\ only_in (c_size c) written (s_mem s) (s_mem s') /\
  ((s_mem s' = s_mem s /\ s_rev s' = s_rev s /\ s_bad s' = s_bad s /\ s_rrev s' = s_rrev s /\ s_applied s' = s_applied s /\ exists e, r = Err e) \/
   exists i n, acceptable fmt hash c s i n /\
    (s_rev s' = s_rev s \/
     (exists k, i_manifest i = Some k /\ s_rev s < k /\ s_rev s' = k) /\
     holds c (s_mem s') (c_active c) n = holds c (s_mem s) (c_staging c) n /\
     forall rr, c_recovery c = Some rr -> holds c (s_mem s') rr n = holds c (s_mem s) (c_staging c) n) /\
    ((exists e, r = Err e /\ s_applied s' = s_applied s) \/
     (r = Ok tt /\ s_applied s' = S (s_applied s) /\
      holds c (s_mem s') (c_active c) n = holds c (s_mem s) (c_staging c) n /\
      (exists k, i_manifest i = Some k /\ s_rev s' = k) /\
      s_rrev s' = revision_of s i /\
      forall rr, c_recovery c = Some rr -> s_bad s' = false /\
        (holds c (s_mem s') rr n = holds c (s_mem s) (c_staging c) n \/
         (s_bad s = false /\ s_rrev s = revision_of s i /\ s_rev s' = s_rev s /\
          forall x, rr <= x < rr + c_size c -> s_mem s' x = s_mem s x))))).
Proof.
  intros s s' r ST I H. unfold run_update in H. unfold bind at 1, get in H.
  apply bind_cases in H. destruct H as [(s1 & [n z] & H1 & H)|(e & H1 & ->)].
  2:{ apply load_and_verify_spec in H1. destruct H1 as (C & M & _). split; [now apply (inv_calm fmt c s)|].
      split; [rewrite M; intros x _; reflexivity|]. left. destruct C as (C1 & C2 & C3 & C4 & C5 & C6 & C7).
      split; [auto|]. split; [auto|]. split; [auto|]. split; [auto|]. split; [auto|eauto]. }
  destruct (staged_acceptable _ _ _ _ H1) as (i & AC & AL & RV).
  apply load_and_verify_spec in H1. destruct H1 as (C & M & _).
  assert (I1: inv s1) by (now apply (inv_calm fmt c s)). destruct C as (C1 & C2 & C3 & C4 & C5 & C6 & C7).
  pose proof AC as (_ & _ & F & SZ & _). cbv zeta in F. pose proof (size_fits fmt c Hfmt Hlay _ _ _ _ F SZ) as Ln.
  cbn [fst snd] in H.
  assert (AP: forall s2 q, apply_update fmt c oracle n s1 = (s2, q) ->
    inv s2 /\ s_rev s2 = s_rev s /\ s_rrev s2 = s_rrev s /\ s_applied s2 = s_applied s /\
    holds c (s_mem s2) (c_staging c) n = holds c (s_mem s) (c_staging c) n /\
    only_in (c_size c) (c_active c :: opt (c_recovery c) ++ opt (c_backup c)) (s_mem s) (s_mem s2) /\
    (forall up, q = Ok up -> holds c (s_mem s2) (c_active c) n = holds c (s_mem s) (c_staging c) n /\
     (up = true -> s_bad s2 = false /\ exists rr, c_recovery c = Some rr /\ holds c (s_mem s2) rr n = holds c (s_mem s) (c_staging c) n) /\
     (up = false -> s_bad s2 = s_bad s /\ forall rr, c_recovery c = Some rr ->
        forall x, rr <= x < rr + c_size c -> s_mem s2 x = s_mem s x))).
  { intros s2 q E. pose proof E as E'. apply (apply_inv fmt c oracle Hfmt Hlay Hpage n i) in E; auto; try (rewrite ?M, ?C1; auto; fail).
    rewrite M, C1, C2, C3 in E. destruct E as (E1 & E2 & E3 & E4 & E5 & E6).
    split; [auto|]. split; [auto|]. split; [auto|]. split.
    { apply (apply_cases fmt c oracle Hfmt Hlay Hpage n i) in E'; auto; try (rewrite ?M, ?C1; auto; fail); [|apply I1].
      destruct E' as [(K & _)|[(rr & _ & _ & K & _)|(t1 & t2 & up & q' & gd & B1 & _ & _ & _ & V4 & V5 & _ & W & _ & _ & _ & _ & _ & T & _)]].
      - rewrite <- C7. apply K.
      - rewrite <- C7. apply K.
      - assert (FF: fmt (s_mem t1) (c_staging c + c_off c) = Some i).
        { rewrite M in V5. now apply (fmt_written fmt c Hfmt (s_mem s) (s_mem t1) (c_staging c) (c_staging c) i n). }
        apply (write_active fmt c oracle Hfmt Hlay (c_staging c) (c_backup c) n i) in W; auto.
        destruct W as ((_ & _ & _ & _ & _ & _ & K) & _). congruence. }
    split; [auto|]. split; [auto|]. intros up Q. destruct (E6 up Q) as (E7 & E8 & E9). split; [auto|]. split.
    - intros U. destruct (E8 U) as (_ & E10 & E11). auto.
    - intros U. destruct (E9 U) as (_ & E10 & E11). auto. }
  apply bind_cases in H. destruct H as [(s2 & up & H2 & H)|(e & H2 & ->)].
  2:{ destruct (AP _ _ H2) as (A1 & A2 & A3 & A4 & A5 & A6 & _). split; [auto|]. split.
      { apply (only_in_sub c _ _ _ _ A6). unfold written. intros x. cbn [In]. rewrite !in_app_iff. tauto. }
      right. exists i, n. split; [auto|]. split; [auto|]. left. exists e. auto. }
  destruct (AP _ _ H2) as (A1 & A2 & A3 & A4 & A5 & A6 & A7). destruct (A7 up eq_refl) as (A8 & A9 & A10). clear AP A7 H2.
  assert (W6: only_in (c_size c) written (s_mem s) (s_mem s2)).
  { apply (only_in_sub c _ _ _ _ A6). unfold written. intros x. cbn [In]. rewrite !in_app_iff. tauto. }
  assert (FA: fmt (s_mem s2) (c_active c + c_off c) = Some i) by (now apply (fmt_written fmt c Hfmt (s_mem s) _ (c_staging c) _ i n)).
  assert (FS: fmt (s_mem s2) (c_staging c + c_off c) = Some i) by (now apply (fmt_written fmt c Hfmt (s_mem s) _ (c_staging c) _ i n)).
  apply bind_cases in H. destruct H as [(s3 & [] & H3 & H)|(e & H3 & ->)].
  2:{ apply load_spec in H3. destruct H3 as (K & M3 & _). split; [now apply (inv_calm fmt c s2)|]. rewrite M3.
      destruct K as (K1 & K2 & K3 & K4 & K5 & K6 & K7). split; [auto|].
      right. exists i, n. split; [auto|]. split; [left; congruence|]. left. exists e. split; [auto|congruence]. }
  apply load_spec in H3. destruct H3 as (K & M3 & L3). destruct (L3 eq_refl) as (i' & L4 & L5). clear L3.
  assert (i' = i) by congruence. subst i'.
  assert (I3: inv s3) by (now apply (inv_calm fmt c s2)). destruct K as (K1 & K2 & K3 & K4 & K5 & K6 & K7).
  assert (PR: forall s4 q, process_revocation fmt c oracle (c_staging c) n (match z with Some x => x | None => s_rrev s end) up s3 = (s4, q) ->
    inv s4 /\ s_applied s4 = s_applied s /\ only_in (c_size c) written (s_mem s) (s_mem s4) /\
    holds c (s_mem s4) (c_active c) n = holds c (s_mem s) (c_staging c) n /\
    (s_rev s4 = s_rev s \/
     (exists k, i_manifest i = Some k /\ s_rev s < k /\ s_rev s4 = k) /\
     forall rr, c_recovery c = Some rr -> holds c (s_mem s4) rr n = holds c (s_mem s) (c_staging c) n) /\
    (q = Ok tt -> (exists k, i_manifest i = Some k /\ s_rev s4 = k) /\
      s_rrev s4 = revision_of s i /\
      forall rr, c_recovery c = Some rr -> s_bad s4 = false /\
        (holds c (s_mem s4) rr n = holds c (s_mem s) (c_staging c) n \/
         (s_bad s = false /\ s_rrev s = revision_of s i /\ s_rev s4 = s_rev s /\
          forall x, rr <= x < rr + c_size c -> s_mem s4 x = s_mem s x)))).
  { intros s4 q E.
    apply (process_spec fmt c oracle Hfmt Hlay Hpage (c_staging c) n i) in E; auto; try (rewrite ?M3, ?K1, ?A2; auto; fail).
    2:{ intros ->. destruct (A9 eq_refl) as (Q1 & rr & Q2 & Q3). split; [congruence|]. exists rr. split; [auto|].
        rewrite M3. now apply (fmt_written fmt c Hfmt (s_mem s) _ (c_staging c) _ i n). }
    destruct E as (E1 & E2 & E3 & E4 & E5 & E6). rewrite M3 in *. rewrite <- RV in E6.
    assert (HA: holds c (s_mem s4) (c_active c) n = holds c (s_mem s) (c_staging c) n).
    { rewrite <- A8. apply (apart_hold _ _ _ _ _ E3); auto using active_apart. }
    assert (UP: forall rr, c_recovery c = Some rr -> up = true -> (forall x, s_mem s4 x = s_mem s2 x) ->
      holds c (s_mem s4) rr n = holds c (s_mem s) (c_staging c) n).
    { intros rr Hr U Q. destruct (A9 U) as (_ & r' & Q2 & Q3). assert (r' = rr) by congruence. subst r'.
      rewrite <- Q3. unfold holds. apply img_read_ext. auto. }
    split; [auto|]. split; [congruence|]. split.
    { apply (only_in_trans c _ _ (s_mem s2)); auto. apply (only_in_sub c _ _ _ _ E3). unfold written. intros x. cbn [In]. tauto. }
    split; [auto|]. split.
    - destruct E5 as [E5|((k & Y1 & Y2 & Y3) & E5)]; [left; congruence|]. right. split; [exists k; split; [auto|split; [congruence|auto]]|].
      intros rr Hr. destruct (E5 rr Hr) as (_ & _ & Z1 & Z2). destruct up.
      + exact (UP rr Hr eq_refl (Z2 eq_refl)).
      + now rewrite Z1.
    - intros Q. destruct (E6 Q) as (Y1 & Y2 & Y3 & Y4 & Y5). split.
      { destruct (i_manifest i) as [k|] eqn:Km; [|congruence]. exists k. split; [auto|]. specialize (Y1 k eq_refl).
        destruct E5 as [E5|((k' & Z1 & Z2 & Z3) & _)]; [|congruence].
        apply allowed_good in AL. pose proof (proj2 AL k Km). lia. }
      split; [auto|]. intros rr Hr. destruct (Y5 rr Hr) as (Z1 & Z2). split.
      { apply Y3. congruence. }
      destruct up.
      + left. exact (UP rr Hr eq_refl (Z2 eq_refl)).
      + destruct (Z1 eq_refl) as [Z3|(Z3 & Z4 & Z5 & Z6)]; [left; congruence|]. right.
        destruct (A10 eq_refl) as (X1 & X2). split; [congruence|]. split; [congruence|]. split; [congruence|].
        intros x Hx. rewrite Z6. now apply (X2 rr). }
  apply bind_cases in H. destruct H as [(s4 & [] & H4 & H)|(e & H4 & ->)].
  - destruct (PR _ _ H4) as (P1 & P2 & P3 & P4 & P5 & P6). destruct (P6 eq_refl) as (P7 & P8 & P9).
    unfold applied in H. injection H as <- <-. cbn [s_mem s_rev s_bad s_rrev s_applied].
    split; [exact P1|]. split; [auto|]. right. exists i, n. split; [auto|]. split.
    { destruct P5 as [P5|(P5 & P5')]; [auto|]. right. auto. }
    right. split; [auto|]. split; [congruence|]. auto.
  - destruct (PR _ _ H4) as (P1 & P2 & P3 & P4 & P5 & _). split; [auto|]. split; [auto|]. right. exists i, n. split; [auto|]. split.
    { destruct P5 as [P5|(P5 & P5')]; [auto|]. right. auto. }
    left. exists e. auto.
Qed.

(** Restoring the recovery image from the active one. *)
Lemma restore_recovery_spec : forall s s' r, inv s -> restore_recovery fmt hash c oracle s = (s', r) ->
  inv s' /\ s_rev s' = s_rev s /\ only_in (c_size c) (opt (c_recovery c)) (s_mem s) (s_mem s') /\
  s_upd s' = s_upd s /\ s_digest s' = s_digest s /\ s_len s' = s_len s /\ s_applied s' = s_applied s /\
  (r = Ok tt -> s_bad s = true /\ s_bad s' = false /\ exists rr i n, c_recovery c = Some rr /\ fmt (s_mem s) (c_active c + c_off c) = Some i /\
     i_size i = Some n /\ allowed (s_rev s) i = true /\ holds c (s_mem s') rr n = holds c (s_mem s) (c_active c) n /\
     s_rrev s' = match i_header i with Some (Some z) => z | _ => (-1)%Z end).
Proof.
  intros s s' r I H. unfold restore_recovery in H. pose proof I as (B & U & IR).
  destruct (c_recovery c) as [rr|] eqn:Hr.
  2:{ unfold fail in H. injection H as <- <-. split; [auto|]. split; [auto|]. split; [intros x _; reflexivity|].
      split; [auto|]. split; [auto|]. split; [auto|]. split; [auto|discriminate]. }
  unfold bind at 1, get in H. destruct (s_bad s) eqn:Eb.
  2:{ unfold fail in H. injection H as <- <-. split; [auto|]. split; [auto|]. split; [intros x _; reflexivity|].
      split; [auto|]. split; [auto|]. split; [auto|]. split; [auto|discriminate]. }
  assert (K: forall s2 q, restore_image fmt hash c oracle rr (c_active c) true s = (s2, q) ->
    bytes_img (s_mem s2) /\ calm s s2 /\ only_in (c_size c) [rr] (s_mem s) (s_mem s2) /\
    forall z, q = Ok z -> exists i n, fmt (s_mem s) (c_active c + c_off c) = Some i /\
     i_size i = Some n /\ allowed (s_rev s) i = true /\ holds c (s_mem s2) rr n = holds c (s_mem s) (c_active c) n /\
     match z with Some x => x | None => (-1)%Z end = match i_header i with Some (Some x) => x | _ => (-1)%Z end).
  { intros s2 q E. unfold restore_image in E. apply bind_cases in E. destruct E as [(s1 & [n z] & H1 & E)|(e & H1 & ->)].
    2:{ apply load_and_verify_spec in H1. destruct H1 as (C & M & _). rewrite M. split; [auto|]. split; [auto|].
        split; [intros x _; reflexivity|discriminate]. }
    apply load_and_verify_spec in H1. destruct H1 as (C & M & V). destruct (V n z eq_refl) as (i & V1 & V2 & V3 & V4 & V5 & _).
    specialize (V4 eq_refl). specialize (V5 eq_refl). cbn [fst snd] in E.
    destruct (write_image fmt c oracle rr None (c_active c) n s1) as [s3 [q3 gd]] eqn:W.
    apply (write_recovery fmt c oracle Hfmt Hlay Hpage rr None (c_active c) n i) in W; auto; try (rewrite M; auto; fail).
    destruct W as (D & BB & O & _ & W2 & _). rewrite M in *.
    destruct q3 as [[]|e]; injection E as <- <-; (split; [auto|]; split; [exact (calm_trans _ _ _ C D)|]; split; [auto|]); [|discriminate].
    intros z' Q. injection Q as <-. exists i, n. split; [auto|]. split; [auto|]. split; [auto|]. split; [now apply W2|].
    unfold rev_result in V5. destruct (i_header i) as [[x|]|]; [|destruct V5|]; destruct V5 as (-> & _); reflexivity. }
  destruct (lay_other c Hlay rr (or_intror (or_intror Hr))) as (L1 & L2 & L3).
  apply bind_cases in H. destruct H as [(s2 & z & H1 & H)|(e & H1 & ->)].
  - destruct (K _ _ H1) as (B2 & (C1 & C2 & C3 & C4 & C5 & C6 & C7) & O & Z). destruct (Z z eq_refl) as (i & n & Z1 & Z2 & Z3 & Z4 & Z5).
    unfold bind, set_bad, set_rrev in H. injection H as <- <-. cbn [s_mem s_rev s_bad s_rrev s_upd s_digest s_len s_applied].
    split.
    { split; [auto|]. split; [cbn; rewrite C4; auto|]. intros r' Q. assert (r' = rr) by congruence. subst r'.
      cbn [s_mem s_rev s_bad]. split; [|discriminate]. intros _. rewrite C1. now apply (good_written fmt c Hfmt (s_mem s) _ (c_active c) rr i n). }
    split; [auto|]. split; [auto|]. split; [auto|]. split; [auto|]. split; [auto|]. split; [auto|]. intros _. split; [auto|]. split; [auto|].
    exists rr, i, n. auto 10.
  - destruct (K _ _ H1) as (B2 & (C1 & C2 & C3 & C4 & C5 & C6 & C7) & O & _). split.
    { split; [auto|]. split; [rewrite C4; auto|]. intros r' Q. assert (r' = rr) by congruence. subst r'. rewrite C2, C1.
      split; [congruence|]. intros _. apply (good_same fmt c Hfmt Hlay (s_mem s)); [now apply (IR rr)|].
      apply (only_in_same c [rr]); auto. intros b [<-|[]]. now apply apart_sym. }
    split; [auto|]. split; [auto|]. split; [auto|]. split; [auto|]. split; [auto|]. split; [auto|discriminate].
Qed.

(** An update whose revocation is left to the next boot. *)
Lemma run_no_revocation_spec : forall s s' r, inv s -> run_update_no_revocation fmt hash c oracle s = (s', r) ->
  inv s' /\ s_rev s' = s_rev s /\ only_in (c_size c) written (s_mem s) (s_mem s') /\
  (((forall x, c_active c <= x < c_active c + c_size c -> s_mem s' x = s_mem s x) /\ s_applied s' = s_applied s /\ exists e, r = Err e) \/
   exists i n, (s_len s + c_off c <= c_size c -> acceptable fmt hash c s i n) /\
    ((exists e, r = Err e /\ s_applied s' = s_applied s) \/
     (r = Ok tt /\ s_applied s' = S (s_applied s) /\ holds c (s_mem s') (c_active c) n = holds c (s_mem s) (c_staging c) n /\
      forall rr, c_recovery c = Some rr -> s_bad s' = false /\ good fmt c (s_mem s') (s_rev s') rr /\
       (s_bad s = false -> forall x, rr <= x < rr + c_size c -> s_mem s' x = s_mem s x) /\
       (s_bad s = true -> exists j k, fmt (s_mem s) (c_active c + c_off c) = Some j /\ i_size j = Some k /\
          holds c (s_mem s') rr k = holds c (s_mem s) (c_active c) k)))).
Proof.
  intros s s' r I H. unfold run_update_no_revocation in H. unfold bind at 1, get in H.
  assert (P: forall s1 q, (match c_recovery c with Some _ => if s_bad s then restore_recovery fmt hash c oracle else ret tt | None => ret tt end) s = (s1, q) ->
    inv s1 /\ s_rev s1 = s_rev s /\ only_in (c_size c) (opt (c_recovery c)) (s_mem s) (s_mem s1) /\
    s_upd s1 = s_upd s /\ s_digest s1 = s_digest s /\ s_len s1 = s_len s /\ s_applied s1 = s_applied s /\
    (q = Ok tt -> forall rr, c_recovery c = Some rr -> s_bad s1 = false /\
       (s_bad s = false -> s_mem s1 = s_mem s) /\
       (s_bad s = true -> exists j k, fmt (s_mem s) (c_active c + c_off c) = Some j /\ i_size j = Some k /\
          holds c (s_mem s1) rr k = holds c (s_mem s) (c_active c) k))).
  { intros s1 q E. destruct (c_recovery c) as [rr|] eqn:Hr.
    - destruct (s_bad s) eqn:Eb.
      + apply restore_recovery_spec in E; auto. rewrite Hr in E. destruct E as (E1 & E2 & E3 & E4 & E5 & E6 & E7 & E8).
        repeat (split; [assumption|]). intros Q rr' Q'. assert (rr' = rr) by congruence. subst rr'.
        destruct (E8 Q) as (_ & F2 & r' & i & n & F3 & F4 & F5 & F6 & F7 & _). assert (r' = rr) by congruence. subst r'.
        split; [auto|]. split; [congruence|]. intros _. exists i, n. auto.
      + unfold ret in E. injection E as <- <-. split; [auto|]. split; [auto|]. split; [intros x _; reflexivity|].
        split; [auto|]. split; [auto|]. split; [auto|]. split; [auto|]. intros _ rr' _. split; [auto|]. split; [auto|congruence].
    - unfold ret in E. injection E as <- <-. split; [auto|]. split; [auto|]. split; [intros x _; reflexivity|].
      split; [auto|]. split; [auto|]. split; [auto|]. split; [auto|]. discriminate. }
  assert (OW: forall m m', only_in (c_size c) (opt (c_recovery c)) m m' -> only_in (c_size c) written m m').
  { intros m m' O. apply (only_in_sub c _ _ _ _ O). unfold written. intros x. cbn [In]. rewrite !in_app_iff. tauto. }
  assert (OA: forall m m', only_in (c_size c) (opt (c_recovery c)) m m' -> forall x, c_active c <= x < c_active c + c_size c -> m' x = m x).
  { intros m m' O. apply (only_in_same c _ _ _ _ O). intros b Hb. apply active_apart. rewrite in_app_iff. now left. }
  apply bind_cases in H. destruct H as [(s1 & [] & H1 & H)|(e & H1 & ->)].
  2:{ destruct (P _ _ H1) as (P1 & P2 & P3 & P4 & P5 & P6 & P7 & _). split; [auto|]. split; [auto|]. split; [auto|].
      left. split; [auto|]. split; [auto|eauto]. }
  destruct (P _ _ H1) as (P1 & P2 & P3 & P4 & P5 & P6 & P7 & P8). specialize (P8 eq_refl). clear P H1.
  assert (SG: forall x, c_staging c <= x < c_staging c + c_size c -> s_mem s1 x = s_mem s x).
  { apply (only_in_same c _ _ _ _ P3). intros b Hb. apply staging_apart. unfold written. right. rewrite in_app_iff. now left. }
  apply bind_cases in H. destruct H as [(s2 & [n z] & H2 & H)|(e & H2 & ->)].
  2:{ apply load_and_verify_spec in H2. destruct H2 as (C & M & _). split; [now apply (inv_calm fmt c s1)|]. rewrite M.
      destruct C as (C1 & C2 & C3 & C4 & C5 & C6 & C7). split; [congruence|]. split; [auto|]. left. split; [auto|]. split; [congruence|eauto]. }
  destruct (staged_acceptable _ _ _ _ H2) as (i & AC1 & AL & _). apply load_and_verify_spec in H2. destruct H2 as (C & M & _).
  assert (I2: inv s2) by (now apply (inv_calm fmt c s1)).
  destruct C as (C1 & C2 & C3 & C4 & C5 & C6 & C7).
  pose proof AC1 as (X1 & X2 & F & SZ & X5 & X6 & X7). cbv zeta in *. pose proof (size_fits fmt c Hfmt Hlay _ _ _ _ F SZ) as Ln.
  assert (HS: holds c (s_mem s1) (c_staging c) n = holds c (s_mem s) (c_staging c) n).
  { unfold holds. apply img_read_ext. intros k Hk. apply SG. lia. }
  assert (F0: fmt (s_mem s) (c_staging c + c_off c) = Some i).
  { apply (fmt_written fmt c Hfmt (s_mem s1) (s_mem s) (c_staging c) (c_staging c) i n); auto. }
  assert (AC: s_len s + c_off c <= c_size c -> acceptable fmt hash c s i n).
  { intros LL. unfold acceptable. cbv zeta. rewrite <- P4, <- P5, <- P6, <- P2. split; [auto|]. split.
    - intros ty d Q. rewrite (X2 ty d Q) at 1. do 3 f_equal. apply img_read_ext. intros k Hk. apply SG. lia.
    - auto. }
  cbn [fst] in H.
  assert (AP: forall s3 q, apply_update fmt c oracle n s2 = (s3, q) ->
    inv s3 /\ s_rev s3 = s_rev s /\ s_applied s3 = s_applied s /\
    only_in (c_size c) written (s_mem s) (s_mem s3) /\
    (forall up, q = Ok up -> holds c (s_mem s3) (c_active c) n = holds c (s_mem s) (c_staging c) n /\
     forall rr, c_recovery c = Some rr -> s_bad s3 = false /\ forall x, rr <= x < rr + c_size c -> s_mem s3 x = s_mem s1 x)).
  { intros s3 q E. pose proof E as E'. apply (apply_inv fmt c oracle Hfmt Hlay Hpage n i) in E; auto; try (rewrite ?M, ?C1; auto; fail).
    rewrite M, C1, C2, C3, HS in E. destruct E as (E1 & E2 & E3 & E4 & E5 & E6).
    split; [auto|]. split; [congruence|]. split.
    { apply (apply_cases fmt c oracle Hfmt Hlay Hpage n i) in E'; auto; try (rewrite ?M, ?C1; auto; fail); [|apply I2].
      destruct E' as [(K & _)|[(rr & _ & _ & K & _)|(t1 & t2 & up & q' & gd & B1 & _ & _ & _ & V4 & V5 & _ & W & _ & _ & _ & _ & _ & T & _)]].
      - rewrite <- P7, <- C7. apply K.
      - rewrite <- P7, <- C7. apply K.
      - assert (FF: fmt (s_mem t1) (c_staging c + c_off c) = Some i).
        { rewrite M in V5. now apply (fmt_written fmt c Hfmt (s_mem s1) (s_mem t1) (c_staging c) (c_staging c) i n). }
        apply (write_active fmt c oracle Hfmt Hlay (c_staging c) (c_backup c) n i) in W; auto.
        destruct W as ((_ & _ & _ & _ & _ & _ & K) & _). congruence. }
    split.
    { apply (only_in_trans c _ _ (s_mem s1)); auto. apply (only_in_sub c _ _ _ _ E5). unfold written. intros x. cbn [In]. rewrite !in_app_iff. tauto. }
    intros up Q. destruct (E6 up Q) as (E7 & E8 & E9). split; [auto|]. intros rr Hr. destruct (P8 rr Hr) as (G1 & _).
    destruct up; [destruct (E8 eq_refl); congruence|]. destruct (E9 eq_refl) as (_ & G2 & G3). split; [congruence|]. now apply G3. }
  apply bind_cases in H. destruct H as [(s3 & up & H3 & H)|(e & H3 & ->)].
  - destruct (AP _ _ H3) as (A1 & A2 & A3 & A4 & A5). destruct (A5 up eq_refl) as (A6 & A7).
    unfold applied in H. injection H as <- <-. cbn [s_mem s_rev s_bad s_rrev s_applied]. split; [exact A1|]. split; [auto|]. split; [auto|].
    right. exists i, n. split; [auto|]. right. split; [auto|]. split; [congruence|]. split; [auto|].
    intros rr Hr. destruct (A7 rr Hr) as (A8 & A9). destruct (P8 rr Hr) as (G1 & G2 & G3). split; [auto|]. split; [now apply A1|]. split.
    + intros Eb x Hx. rewrite A9 by auto. now rewrite (G2 Eb).
    + intros Eb. destruct (G3 Eb) as (j & k & J1 & J2 & J3). exists j, k. split; [auto|]. split; [auto|]. rewrite <- J3.
      unfold holds. apply img_read_ext. intros y Hy. apply A9. pose proof (size_fits fmt c Hfmt Hlay _ _ _ _ J1 J2). lia.
  - destruct (AP _ _ H3) as (A1 & A2 & A3 & A4 & _). split; [auto|]. split; [auto|]. split; [auto|].
    right. exists i, n. split; [auto|]. left. exists e. auto.
Qed.

(** A restored active image, from a good recovery image. *)
Lemma restore_active_spec : forall s s' r, inv s -> (forall rr, c_recovery c = Some rr -> s_bad s = false) ->
  restore_active fmt hash c oracle s = (s', r) ->
  inv s' /\ s_rev s' = s_rev s /\ only_in (c_size c) [c_active c] (s_mem s) (s_mem s') /\ calm s s' /\
  (r = Ok tt -> exists rr i n, c_recovery c = Some rr /\ fmt (s_mem s) (rr + c_off c) = Some i /\ i_size i = Some n /\
     allowed (s_rev s) i = true /\ holds c (s_mem s') (c_active c) n = holds c (s_mem s) rr n).
Proof.
  intros s s' r I Hb H. unfold restore_active in H. pose proof I as (B & U & IR).
  destruct (c_recovery c) as [rr|] eqn:Hr.
  2:{ unfold fail in H. injection H as <- <-. split; [auto|]. split; [auto|]. split; [intros x _; reflexivity|].
      split; [apply calm_refl|discriminate]. }
  assert (K: forall s2 q, restore_image fmt hash c oracle (c_active c) rr false s = (s2, q) ->
    bytes_img (s_mem s2) /\ calm s s2 /\ only_in (c_size c) [c_active c] (s_mem s) (s_mem s2) /\
    (forall x, rr <= x < rr + c_size c -> s_mem s2 x = s_mem s x) /\
    forall z, q = Ok z -> exists i n, fmt (s_mem s) (rr + c_off c) = Some i /\
     i_size i = Some n /\ allowed (s_rev s) i = true /\ holds c (s_mem s2) (c_active c) n = holds c (s_mem s) rr n).
  { intros s2 q E. unfold restore_image in E. apply bind_cases in E. destruct E as [(s1 & [n z] & H1 & E)|(e & H1 & ->)].
    2:{ apply load_and_verify_spec in H1. destruct H1 as (C & M & _). rewrite M. split; [auto|]. split; [auto|].
        split; [intros x _; reflexivity|]. split; [auto|discriminate]. }
    apply load_and_verify_spec in H1. destruct H1 as (C & M & V). destruct (V n z eq_refl) as (i & V1 & V2 & V3 & V4 & _).
    specialize (V4 eq_refl). cbn [fst snd] in E.
    destruct (write_image fmt c oracle (c_active c) None rr n s1) as [s3 [q3 gd]] eqn:W.
    apply (write_active fmt c oracle Hfmt Hlay rr None n i) in W; auto; try (rewrite M; auto; fail).
    destruct W as (D & BB & O & W2 & _ & W3 & _). rewrite M in *.
    destruct q3 as [[]|e]; injection E as <- <-; (split; [auto|]; split; [exact (calm_trans _ _ _ C D)|]; split; [auto|]; split; [now apply W3|]); [|discriminate].
    intros z' Q. exists i, n. split; [auto|]. split; [auto|]. split; [auto|]. now apply W2. }
  assert (Z: exists q, restore_image fmt hash c oracle (c_active c) rr false s = (s', q) /\ (r = Ok tt -> exists z, q = Ok z)).
  { apply bind_cases in H. destruct H as [(s2 & z & H1 & H)|(e & H1 & ->)].
    - unfold ret in H. injection H as <- <-. eauto.
    - exists (Err e). split; [auto|discriminate]. }
  destruct Z as (q & Z1 & Z2). destruct (K _ _ Z1) as (B2 & C & O & F & Z). pose proof C as (C1 & C2 & C3 & C4 & _).
  split.
  { split; [auto|]. split; [rewrite C4; auto|]. intros r' Q. rewrite C2, (Hb rr eq_refl), C1. split; [|discriminate]. intros _.
    assert (r' = rr) by congruence. subst r'. apply (good_same fmt c Hfmt Hlay (s_mem s)); auto. apply IR; [auto|]. now apply (Hb rr). }
  split; [auto|]. split; [auto|]. split; [auto|]. intros Q. destruct (Z2 Q) as (z & Z3). destruct (Z z Z3) as (i & n & Y).
  exists rr, i, n. tauto.
Qed.

Lemma verify_copy_ok : forall rf m1 a1 m2 a2 n, verify_copy rf m1 a1 m2 a2 n = FuOk -> img_read m2 a2 n = img_read m1 a1 n.
Proof.
  clear. intros rf m1 a1 m2 a2 n H. unfold verify_copy in H.
  pose proof (verify_copy_loop_spec rf n m1 a1 m2 a2 n (le_n _)) as (C & _). specialize (C H).
  apply img_read_ext. intros k Hk. symmetry. now apply C.
Qed.

(** Comparing the recovery image with the active one. *)
Lemma matches_spec : forall s s' r, recovery_matches fmt c oracle s = (s', r) ->
  s_mem s' = s_mem s /\ s_rev s' = s_rev s /\ s_upd s' = s_upd s /\ s_applied s' = s_applied s /\
  ((s_bad s' = s_bad s /\ s_rrev s' = s_rrev s /\ (r = Ok true -> c_recovery c = None)) \/
   (r = Ok true /\ s_bad s' = false /\ exists rr i n, c_recovery c = Some rr /\
     fmt (s_mem s) (c_active c + c_off c) = Some i /\ i_size i = Some n /\
     holds c (s_mem s) rr n = holds c (s_mem s) (c_active c) n /\ s_rrev s' = revision_of s i)).
Proof.
  clear Hpage. intros s s' r H. unfold recovery_matches in H. destruct (c_recovery c) as [rr|] eqn:Hr.
  2:{ unfold ret in H. injection H as <- <-. auto 10. }
  assert (ZZ: forall t q, calm s t -> s_mem t = s_mem s -> (t, q) = (s', r) -> q <> Ok true ->
    s_mem s' = s_mem s /\ s_rev s' = s_rev s /\ s_upd s' = s_upd s /\ s_applied s' = s_applied s /\
    ((s_bad s' = s_bad s /\ s_rrev s' = s_rrev s /\ (r = Ok true -> Some rr = None)) \/
     (r = Ok true /\ s_bad s' = false /\ exists rr0 i n, Some rr = Some rr0 /\
      fmt (s_mem s) (c_active c + c_off c) = Some i /\ i_size i = Some n /\
      holds c (s_mem s) rr0 n = holds c (s_mem s) (c_active c) n /\ s_rrev s' = revision_of s i))).
  { intros t q (C1 & C2 & C3 & C4 & C5 & C6 & C7) M E NT. injection E as <- <-. split; [auto|]. split; [auto|]. split; [auto|].
    split; [auto|]. left. split; [auto|]. split; [auto|]. congruence. }
  apply bind_cases in H. destruct H as [(s1 & [] & H1 & H)|(e & H1 & ->)].
  2:{ apply load_spec in H1. destruct H1 as (C & M & _). eapply ZZ; eauto. discriminate. }
  apply load_spec in H1. destruct H1 as (C1 & M1 & I1). destruct (I1 eq_refl) as (i & I2 & I3). clear I1.
  apply bind_cases in H. destruct H as [(s2 & n & H1 & H)|(e & H1 & ->)].
  2:{ apply size_spec in H1. destruct H1 as (C & M & _). apply quiet_calm in C.
      apply (ZZ s' (Err e)); [exact (calm_trans _ _ _ C1 C)|congruence|auto|discriminate]. }
  apply size_spec in H1. destruct H1 as (C2 & M2 & I4). destruct (I4 n eq_refl) as (i' & I5 & I6). clear I4.
  assert (i' = i) by congruence. subst i'.
  assert (F2: s_fw s2 = Some i) by (rewrite (proj1 C2); auto).
  apply quiet_calm in C2. pose proof (calm_trans _ _ _ C1 C2) as C12. rewrite M1 in M2.
  unfold bind at 1, header at 1, bind at 1, get, ret at 1 in H. rewrite F2 in H.
  apply bind_cases in H. destruct H as [(s3 & [] & H1 & H)|(e & H1 & ->)].
  2:{ destruct (i_header i) as [[x|]|]; try discriminate. unfold fail in H1. injection H1 as <-.
      apply (ZZ s2 (Err e)); [auto|auto|auto|discriminate]. }
  assert (s3 = s2 /\ i_header i <> Some None) as (-> & HN).
  { destruct (i_header i) as [[x|]|]; try discriminate; unfold ret in H1; injection H1 as <-; split; auto; discriminate. }
  clear H1. apply bind_cases in H. destruct H as [(s4 & [] & H1 & H)|(e & H1 & ->)].
  2:{ apply load_spec in H1. destruct H1 as (C & M & _).
      apply (ZZ s' (Err e)); [exact (calm_trans _ _ _ C12 C)|congruence|auto|discriminate]. }
  apply load_spec in H1. destruct H1 as (C4 & M4 & I1). destruct (I1 eq_refl) as (j & J2 & J3). clear I1.
  pose proof (calm_trans _ _ _ C12 C4) as C14. rewrite M2 in M4.
  apply bind_cases in H. destruct H as [(s5 & k & H1 & H)|(e & H1 & ->)].
  2:{ apply size_spec in H1. destruct H1 as (C & M & _). apply quiet_calm in C.
      apply (ZZ s' (Err e)); [exact (calm_trans _ _ _ C14 C)|congruence|auto|discriminate]. }
  apply size_spec in H1. destruct H1 as (C5 & M5 & _). apply quiet_calm in C5.
  pose proof (calm_trans _ _ _ C14 C5) as C15. rewrite M4 in M5.
  destruct (Nat.eqb_spec n k) as [<-|NE]; cbn [negb] in H.
  2:{ unfold ret in H. apply (ZZ s5 (Ok false)); [auto|auto|auto|discriminate]. }
  unfold bind at 1, ask in H. unfold bind at 1, get in H.
  cbn [s_mem s_tick] in H. rewrite M5 in H.
  set (t := FState (s_mem s) (s_fw s5) (s_rev s5) (S (s_tick s5)) (s_bad s5) (s_rrev s5) (s_upd s5) (s_digest s5) (s_len s5) (s_applied s5)) in H.
  assert (Ct: calm s t) by exact C15. assert (Mt: s_mem t = s_mem s) by reflexivity.
  match type of H with context [verify_copy ?a ?b ?d ?e ?f ?g] => destruct (verify_copy a b d e f g) eqn:VC end.
  all: try (unfold ret, fail in H; refine (ZZ t _ Ct Mt H _); discriminate).
  apply verify_copy_ok in VC.
  destruct C15 as (D1 & D2 & D3 & D4 & D5 & D6 & D7).
  assert (X: s_mem s' = s_mem s5 /\ s_rev s' = s_rev s5 /\ s_upd s' = s_upd s5 /\ s_applied s' = s_applied s5 /\ r = Ok true /\
    s_bad s' = false /\ s_rrev s' = revision_of s i).
  { unfold revision_of. destruct (i_header i) as [[x|]|]; [|congruence|]; unfold bind, set_bad, set_rrev, ret in H;
     injection H as <- <-; cbn; auto 10. }
  destruct X as (X1 & X2 & X3 & X4 & X5 & X6 & X7).
  split; [congruence|]. split; [congruence|]. split; [congruence|]. split; [congruence|]. right.
  split; [auto|]. split; [auto|]. exists rr, i, n. split; [auto|]. split; [auto|]. split; [auto|]. split; [|auto].
  unfold holds. auto.
Qed.

End History.
