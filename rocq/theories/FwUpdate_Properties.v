(** C42, C43, C44: updating the firmware. *)
From Coq Require Import List NArith ZArith Lia Bool Arith ZifyBool ZifyNat ZifyN.
From Verif Require Import Base Flash_Base FlashUtil_Model FlashUpdater_Model FwUpdate_Model FwUpdate_Spec
  FwUpdate_Flash_Proofs FwUpdate_Proofs FwUpdate_History_Proofs FwUpdate_Run_Proofs FwUpdate_Works_Proofs FwUpdate_Staged_Proofs.
Import ListNotations.
Local Open Scope N_scope.

Lemma reached_inv : forall fmt hash c oracle s, device fmt c -> reached fmt hash c oracle s -> inv fmt c s.
Proof.
  intros fmt hash c oracle s (D1 & D2 & D3 & D4) (s0 & f & k & v & l & B & G & (_ & F) & ->). cbn [run].
  apply run_inv; auto. destruct (step fmt hash c oracle s0 (Boot f k v)) as [s1 r] eqn:E.
  exact (proj1 (boot_step fmt hash c oracle D1 D2 D3 f k v s0 s1 r D4 B G E)).
Qed.

(** C42. A device with a recovery image never becomes unbootable: whatever is requested, whatever fails and whenever power
    is lost, the active or the recovery image may run; the recovery image may run unless it is recorded as bad. *)
Theorem C42_never_unbootable : forall fmt hash c oracle r s, device fmt c -> c_recovery c = Some r ->
  reached fmt hash c oracle s ->
  (good fmt c (s_mem s) (s_rev s) (c_active c) \/ good fmt c (s_mem s) (s_rev s) r) /\
  (s_bad s = false -> good fmt c (s_mem s) (s_rev s) r).
Proof.
  intros fmt hash c oracle r s D Hr H. apply reached_inv in H; auto. destruct H as (_ & _ & I). destruct (I r Hr) as (I1 & I2).
  split; [|auto]. destruct (s_bad s); auto.
Qed.
Print Assumptions C42_never_unbootable.

(** Without a recovery image, but with room for a backup: the active image or its backup may run after an update, however
    it ended. *)
Theorem C42_backup : forall fmt hash c oracle b s o s' r, device fmt c -> c_recovery c = None -> c_backup c = Some b ->
  reached fmt hash c oracle s -> good fmt c (s_mem s) (s_rev s) (c_active c) ->
  o = RunUpdate \/ o = RunUpdateNoRevocation ->
  step fmt hash c oracle s o = (s', r) ->
  good fmt c (s_mem s') (s_rev s') (c_active c) \/ good fmt c (s_mem s') (s_rev s') b.
Proof.
  intros fmt hash c oracle b s o s' r (D1 & D2 & D3 & D4) Hr Hb RE G Ho H. apply reached_inv in RE; [|unfold device; auto].
  assert (AP: forall n i s1 s2 q, bytes_img (s_mem s1) -> good fmt c (s_mem s1) (s_rev s1) (c_active c) ->
    fmt (s_mem s1) (c_staging c + c_off c) = Some i -> i_size i = Some n -> allowed (s_rev s1) i = true ->
    apply_update fmt c oracle n s1 = (s2, q) ->
    s_rev s2 = s_rev s1 /\ (good fmt c (s_mem s2) (s_rev s1) (c_active c) \/ good fmt c (s_mem s2) (s_rev s1) b)).
  { intros n i s1 s2 q B G1 F SZ AL A. apply (apply_cases fmt c oracle D1 D2 D3 n i) in A; auto.
    destruct A as [(C & M & _)|[(rr & X & _)|(t1 & t2 & up & q2 & gd & A1 & A2 & A3 & A4 & A5 & A6 & A7 & A8 & A9 & A10 & _)]].
    - rewrite M. split; [apply C|auto].
    - congruence.
    - destruct A7 as [(_ & M1 & _)|(_ & _ & _ & rr & X & _)]; [|congruence]. rewrite Hb in A8.
      apply (write_active fmt c oracle D1 D2 (c_staging c) (Some b) n i) in A8; auto; try (now rewrite M1).
      destruct A8 as (C & _ & _ & _ & _ & _ & W & _). destruct C as (C1 & _). split; [congruence|].
      rewrite A9, <- A2. apply W; [auto|]. now rewrite M1, A2. }
  destruct Ho as [-> | ->]; cbn [step] in H.
  - unfold run_update in H. unfold bind at 1, get in H.
    apply bind_cases in H. destruct H as [(s1 & [n z] & H1 & H)|(e & H1 & ->)].
    2:{ apply load_and_verify_spec in H1. destruct H1 as (C & M & _). left. rewrite M, (proj1 C). auto. }
    apply load_and_verify_spec in H1. destruct H1 as (C & M & V). destruct (V n z eq_refl) as (i & V1 & V2 & V3 & V4 & _).
    specialize (V4 eq_refl). assert (I1: inv fmt c s1) by (now apply (inv_calm fmt c s)). cbn [fst snd] in H.
    assert (AL: allowed (s_rev s1) i = true) by (now rewrite (proj1 C)).
    apply bind_cases in H. destruct H as [(s2 & up & H2 & H)|(e & H2 & ->)].
    2:{ apply (AP n i) in H2; auto; try (rewrite ?M, ?(proj1 C); auto; fail); [|apply I1]. destruct H2 as (-> & H2). auto. }
    apply (apply_inv fmt c oracle D1 D2 D3 n i) in H2; auto; try (rewrite ?M; auto; fail).
    destruct H2 as (I2 & R2 & _ & S2 & _ & X2). destruct (X2 up eq_refl) as (A2 & U1 & U2). rewrite M in S2, A2.
    assert (FA: fmt (s_mem s2) (c_active c + c_off c) = Some i) by (now apply (fmt_written fmt c D1 (s_mem s) _ (c_staging c) _ i n)).
    assert (FS: fmt (s_mem s2) (c_staging c + c_off c) = Some i) by (now apply (fmt_written fmt c D1 (s_mem s) _ (c_staging c) _ i n)).
    assert (GA: good fmt c (s_mem s2) (s_rev s2) (c_active c)).
    { exists i. split; [auto|]. rewrite R2. now apply allowed_good. }
    apply bind_cases in H. destruct H as [(s3 & [] & H3 & H)|(e & H3 & ->)].
    2:{ apply load_spec in H3. destruct H3 as (C3 & M3 & _). left. rewrite M3, (proj1 C3). auto. }
    apply load_spec in H3. destruct H3 as (C3 & M3 & X). destruct (X eq_refl) as (i' & F' & F3). assert (i' = i) by congruence. subst i'.
    assert (PR: forall s4 q, process_revocation fmt c oracle (c_staging c) n (match z with Some x => x | None => s_rrev s end) up s3 = (s4, q) ->
      good fmt c (s_mem s4) (s_rev s4) (c_active c)).
    { intros s4 q E. apply (process_spec fmt c oracle D1 D2 D3 (c_staging c) n i) in E; auto; try (now rewrite M3).
      - apply E.
      - now apply (inv_calm fmt c s2).
      - now rewrite (proj1 C3), R2.
      - intros E2. destruct (U1 E2) as (_ & _ & rr & Y & _). congruence. }
    apply bind_cases in H. destruct H as [(s4 & [] & H4 & H)|(e & H4 & ->)].
    + unfold applied in H. injection H as <- <-. left. cbn [s_mem s_rev]. now apply (PR _ _ H4).
    + left. now apply (PR _ _ H4).
  - unfold run_update_no_revocation in H. unfold bind at 1, get in H. rewrite Hr in H. unfold bind at 1, ret at 1 in H.
    apply bind_cases in H. destruct H as [(s1 & [n z] & H1 & H)|(e & H1 & ->)].
    2:{ apply load_and_verify_spec in H1. destruct H1 as (C & M & _). left. rewrite M, (proj1 C). auto. }
    apply load_and_verify_spec in H1. destruct H1 as (C & M & V). destruct (V n z eq_refl) as (i & V1 & V2 & V3 & V4 & _).
    specialize (V4 eq_refl). assert (I1: inv fmt c s1) by (now apply (inv_calm fmt c s)). cbn [fst snd] in H.
    assert (AL: allowed (s_rev s1) i = true) by (now rewrite (proj1 C)).
    apply bind_cases in H. destruct H as [(s2 & up & H2 & H)|(e & H2 & ->)];
     (apply (AP n i) in H2; auto; try (rewrite ?M, ?(proj1 C); auto; fail); [|apply I1]; destruct H2 as (R2 & H2)).
    + unfold applied in H. injection H as <- <-. cbn [s_mem s_rev]. now rewrite R2.
    + now rewrite R2.
Qed.
Print Assumptions C42_backup.

(** C43. An update changes nothing outside the active, recovery and backup regions, and changes anything at all only
    for an acceptable staged image. *)
Theorem C43_only_acceptable : forall fmt hash c oracle s o s' r, device fmt c -> reached fmt hash c oracle s ->
  o = RunUpdate \/ (o = RunUpdateNoRevocation /\ s_bad s = false) ->
  step fmt hash c oracle s o = (s', r) ->
  only_in (c_size c) (c_active c :: opt (c_recovery c) ++ opt (c_backup c) ++ opt (c_rec_backup c)) (s_mem s) (s_mem s') /\
  ((exists x, c_active c <= x < c_active c + c_size c /\ s_mem s' x <> s_mem s x) \/ s_rev s' <> s_rev s \/
   s_applied s' <> s_applied s \/ r = Ok tt ->
   s_len s + c_off c <= c_size c ->
   exists i n, acceptable fmt hash c s i n) /\
  (o = RunUpdate -> (exists x, s_mem s' x <> s_mem s x) -> exists i n, acceptable fmt hash c s i n).
Proof.
  intros fmt hash c oracle s o s' r D RE Ho H. apply reached_inv in RE; auto. destruct D as (D1 & D2 & D3 & D4).
  destruct Ho as [-> |(-> & Eb)]; cbn [step] in H.
  - apply run_update_spec in H; auto. destruct H as (_ & O & H). split; [exact O|].
    destruct H as [(M & R & _ & _ & A & e & ->)|(i & n & AC & _)].
    + split.
      * intros [(x & _ & X)|[X|[X|X]]]; [rewrite M in X| | |]; try congruence.
      * intros _ (x & X). rewrite M in X. congruence.
    + split; intros; exists i, n; auto.
  - apply run_no_revocation_spec in H; auto. destruct H as (_ & R & O & H). split; [exact O|]. split; [|discriminate].
    destruct H as [(M & A & e & ->)|(i & n & AC & _)]; [|intros; exists i, n; auto].
    intros [(x & X1 & X)|[X|[X|X]]]; try congruence. elim X. auto.
Qed.
Print Assumptions C43_only_acceptable.

(** A successful update installed the staged image: the active region holds its bytes, its manifest is the oldest one
    allowed from now on, and the recovery region holds it too unless nothing was to be revoked there and the recovery
    revision did not change. *)
Theorem C43_installed : forall fmt hash c oracle s s', device fmt c -> reached fmt hash c oracle s ->
  step fmt hash c oracle s RunUpdate = (s', Ok tt) ->
  exists i n k, acceptable fmt hash c s i n /\ i_manifest i = Some k /\
    holds c (s_mem s') (c_active c) n = holds c (s_mem s) (c_staging c) n /\
    good fmt c (s_mem s') (s_rev s') (c_active c) /\
    s_rev s' = k /\ s_rrev s' = revision_of s i /\ s_applied s' = S (s_applied s) /\
    (forall rr, c_recovery c = Some rr -> s_bad s' = false /\ good fmt c (s_mem s') (s_rev s') rr /\
      (holds c (s_mem s') rr n = holds c (s_mem s) (c_staging c) n \/
       (s_bad s = false /\ s_rrev s = revision_of s i /\ s_rev s' = s_rev s /\
        forall x, rr <= x < rr + c_size c -> s_mem s' x = s_mem s x))).
Proof.
  intros fmt hash c oracle s s' D RE H. apply reached_inv in RE; auto. destruct D as (D1 & D2 & D3 & D4). cbn [step] in H.
  apply run_update_spec in H; auto. destruct H as ((_ & _ & I) & _ & H).
  destruct H as [(_ & _ & _ & _ & _ & e & X)|(i & n & AC & _ & [(e & X & _)|(_ & A & HA & (k & K1 & K2) & R & HR)])]; try discriminate.
  pose proof AC as (_ & _ & F & SZ & V & _). cbv zeta in F.
  exists i, n, k. split; [auto|]. split; [auto|]. split; [auto|]. split.
  { exists i. split; [now apply (fmt_written fmt c D1 (s_mem s) _ (c_staging c) _ i n)|]. split; [auto|]. intros k' K'. assert (k' = k) by congruence. lia. }
  split; [auto|]. split; [auto|]. split; [auto|].
  intros rr Hr. destruct (HR rr Hr) as (R1 & R2). split; [auto|]. split; [|auto]. now apply (I rr Hr).
Qed.
Print Assumptions C43_installed.

(** The same without revocation: the recovery image is left as it is, or restored from the image that was active. *)
Theorem C43_installed_no_revocation : forall fmt hash c oracle s s', device fmt c -> reached fmt hash c oracle s ->
  s_len s + c_off c <= c_size c ->
  step fmt hash c oracle s RunUpdateNoRevocation = (s', Ok tt) ->
  exists i n, acceptable fmt hash c s i n /\
    holds c (s_mem s') (c_active c) n = holds c (s_mem s) (c_staging c) n /\
    good fmt c (s_mem s') (s_rev s') (c_active c) /\
    s_rev s' = s_rev s /\ s_applied s' = S (s_applied s) /\
    (forall rr, c_recovery c = Some rr -> s_bad s' = false /\ good fmt c (s_mem s') (s_rev s') rr /\
      (s_bad s = false -> forall x, rr <= x < rr + c_size c -> s_mem s' x = s_mem s x) /\
      (s_bad s = true -> exists j k, fmt (s_mem s) (c_active c + c_off c) = Some j /\ i_size j = Some k /\
         holds c (s_mem s') rr k = holds c (s_mem s) (c_active c) k)).
Proof.
  intros fmt hash c oracle s s' D RE L H. apply reached_inv in RE; auto. destruct D as (D1 & D2 & D3 & D4). cbn [step] in H.
  apply run_no_revocation_spec in H; auto. destruct H as (_ & R & _ & H).
  destruct H as [(_ & _ & e & X)|(i & n & AC & [(e & X & _)|(_ & A & HA & HR)])]; try discriminate.
  specialize (AC L). pose proof AC as (_ & _ & F & SZ & V & K & _). cbv zeta in F.
  exists i, n. split; [auto|]. split; [auto|]. split; [|auto].
  exists i. split; [now apply (fmt_written fmt c D1 (s_mem s) _ (c_staging c) _ i n)|]. split; [auto|]. now rewrite R.
Qed.
Print Assumptions C43_installed_no_revocation.

(** An update that starts with an acceptable image and meets no faults succeeds. *)
Theorem C43_succeeds : forall fmt hash c oracle s i n k, device fmt c -> c_page c <= MAX_COPY_BLOCK ->
  (exists before, reached fmt hash c before s) -> (forall t, works c (oracle t)) ->
  acceptable fmt hash c s i n -> i_manifest i = Some k -> (s_digest s <> None -> s_len s <> 0) ->
  (c_backup c <> None -> good fmt c (s_mem s) (s_rev s) (c_active c)) ->
  snd (step fmt hash c oracle s RunUpdate) = Ok tt.
Proof.
  intros fmt hash c oracle s i n k D P (before & RE) W AC K HD HB. apply reached_inv in RE; auto. destruct D as (D1 & D2 & D3 & D4).
  cbn [step]. destruct (run_update fmt hash c oracle s) as [s' r] eqn:E. cbn [snd].
  apply (update_ok fmt hash c oracle D1 D2 D3 P W s s' r i n); auto; [congruence|].
  intros B. destruct (HB B) as (j & J1 & J2 & _). destruct (proj1 D1 _ _ _ J1 J2) as (y & J3). eauto.
Qed.
Print Assumptions C43_succeeds.

(** Receiving an image touches nothing but the staging region. *)
Theorem C43_staging_only : forall fmt hash c oracle s o s' r, device fmt c -> reached fmt hash c oracle s ->
  (exists n, o = Prepare n) \/ (exists ty d, o = SetDigest ty d) \/
    (exists d, o = Write d /\ N.of_nat (length d) + c_size c < 2 ^ 32) ->
  step fmt hash c oracle s o = (s', r) ->
  only_in (c_size c) [c_staging c] (s_mem s) (s_mem s') /\ s_rev s' = s_rev s /\ s_bad s' = s_bad s /\ s_applied s' = s_applied s.
Proof.
  intros fmt hash c oracle s o s' r D RE Ho H. apply reached_inv in RE; auto. destruct D as (D1 & D2 & D3 & D4).
  assert (X: outside (c_staging c) (c_size c) (s_mem s) (s_mem s') -> only_in (c_size c) [c_staging c] (s_mem s) (s_mem s')).
  { intros O x Hx. apply O. apply Hx. now left. }
  destruct Ho as [(n & ->)|[(ty & d & ->)|(d & -> & L)]]; cbn [step] in H.
  - apply (prepare_inv fmt c oracle D1 D2 D3) in H; auto. destruct H as (_ & H1 & H2 & H3 & H4). auto.
  - unfold set_image_digest, bind, get, fail, set_digest in H. destruct (_ || _); injection H as <- <-; auto 10 using outside_refl.
  - apply (write_inv fmt hash c oracle D1 D2 D3) in H; auto. destruct H as (_ & H1 & H2 & H3 & H4). auto.
Qed.
Print Assumptions C43_staging_only.

(** From the announcement of an image to the active region: when every request succeeds, the active image starts with
    the bytes that were sent, and the digest that was set is the digest of these bytes. *)
Theorem C43_end_to_end : forall fmt hash c oracle s n ty d ds s', device fmt c -> reached fmt hash c oracle s ->
  bytes_ok (concat ds) -> (forall x, In x ds -> N.of_nat (length x) + c_size c < 2 ^ 32) -> N.of_nat (length (concat ds)) = n ->
  all_succeed fmt hash c oracle s (Prepare n :: SetDigest ty d :: map Write ds ++ [RunUpdate]) s' ->
  d = firstn (length d) (hash ty (concat ds) ++ repeat 0 64) /\
  exists i k, fmt (s_mem s') (c_active c + c_off c) = Some i /\ i_size i = Some k /\ i_valid i = true /\
    firstn (length (concat ds)) (holds c (s_mem s') (c_active c) k) = firstn k (concat ds).
Proof.
  intros fmt hash c oracle s n ty d ds s' D RE Bd Ld Ln H. apply reached_inv in RE; auto. pose proof D as (D1 & D2 & D3 & D4).
  cbn [all_succeed] in H. destruct H as (s1 & H1 & s2 & H2 & H). apply all_succeed_app in H. destruct H as (s3 & H3 & s4 & H4 & ->).
  apply (prepared fmt hash c oracle D1 D2 D3) in H1; auto. destruct H1 as (R1 & E1).
  assert (R2: receiving fmt c n [] s2 /\ s_digest s2 = Some (ty, d)).
  { cbn [step] in H2. unfold set_image_digest, bind, get, fail, set_digest in H2. destruct (_ || _); [discriminate|].
    injection H2 as <-. split; [exact R1|reflexivity]. }
  destruct R2 as (R2 & E2). apply (received_all fmt hash c oracle D1 D2 D3 n ds []) in H3; auto; [|cbn [app]; lia].
  cbn [app] in H3. destruct H3 as ((I3 & U3 & L3 & N3 & P3 & _) & E3). rewrite E2 in E3.
  cbn [step] in H4. apply run_update_spec in H4; auto. destruct H4 as (_ & _ & H).
  destruct H as [(_ & _ & _ & _ & _ & e & X)|(i & k & AC & _ & [(e & X & _)|(_ & A & HA & _)])]; try discriminate.
  destruct AC as (_ & DG & F & SZ & V & _). cbv zeta in *. specialize (DG ty d E3). rewrite N3 in DG.
  replace (N.to_nat n) with (length (concat ds)) in DG by lia. rewrite P3 in DG. split; [exact DG|].
  exists i, k. split; [now apply (fmt_written fmt c D1 (s_mem s3) _ (c_staging c) _ i k)|]. split; [auto|]. split; [auto|].
  rewrite HA. unfold holds.
  assert (FR: forall m a x y, firstn x (img_read m a y) = img_read m a (Nat.min x y)).
  { intros m a x y. apply nth_ext_len with (d := 0); rewrite firstn_length, !length_img_read; [auto|]. intros j Hj.
    rewrite nth_firstn, !nth_img_read by lia. destruct (Nat.ltb_spec j x); [reflexivity|lia]. }
  rewrite <- P3 at 2. rewrite !FR. now rewrite Nat.min_comm.
Qed.
Print Assumptions C43_end_to_end.

(** C44. Manifests are only ever revoked forward, and only when both images carry the manifest that becomes the oldest one
    allowed: the active region holds an image with it and the recovery region the same bytes. *)
Theorem C44_revocation : forall fmt hash c oracle s o s' r, device fmt c -> reached fmt hash c oracle s ->
  fair fmt c s o -> step fmt hash c oracle s o = (s', r) ->
  s_rev s' = s_rev s \/
  exists i n k, fmt (s_mem s') (c_active c + c_off c) = Some i /\ i_size i = Some n /\ i_manifest i = Some k /\
    s_rev s < k /\ s_rev s' = k /\
    forall rr, c_recovery c = Some rr -> holds c (s_mem s') rr n = holds c (s_mem s') (c_active c) n.
Proof.
  intros fmt hash c oracle s o s' r D RE F H. apply reached_inv in RE; auto. destruct D as (D1 & D2 & D3 & D4).
  exact (proj2 (step_inv fmt hash c oracle D1 D2 D3 s o s' r D4 RE F H)).
Qed.
Print Assumptions C44_revocation.

(** Over any history. *)
Theorem C44_never_back : forall fmt hash c oracle l s, device fmt c -> reached fmt hash c oracle s ->
  fair_run fmt hash c oracle s l -> s_rev s <= s_rev (run fmt hash c oracle s l).
Proof.
  intros fmt hash c oracle l s D RE. apply reached_inv in RE; auto. destruct D as (D1 & D2 & D3 & D4). revert s RE.
  induction l as [|o l IH]; intros s I F; cbn [run]; [lia|]. destruct F as (F1 & F2).
  destruct (step fmt hash c oracle s o) as [s1 r] eqn:E. cbn [fst] in *.
  destruct (step_inv fmt hash c oracle D1 D2 D3 s o s1 r D4 I F1 E) as (I1 & R). specialize (IH s1 I1 F2).
  destruct R as [R|(_ & _ & k & _ & _ & _ & R1 & R2 & _)]; lia.
Qed.
Print Assumptions C44_never_back.

(** A revocation that succeeds leaves the manifest of the active image the oldest one allowed. *)
Theorem C44_revoked : forall fmt hash c oracle s s', device fmt c -> reached fmt hash c oracle s ->
  step fmt hash c oracle s RunRevocation = (s', Ok tt) ->
  (forall x, c_active c <= x < c_active c + c_size c -> s_mem s' x = s_mem s x) /\
  exists i k, fmt (s_mem s') (c_active c + c_off c) = Some i /\ i_manifest i = Some k /\ s_rev s' = k /\
    forall rr, c_recovery c = Some rr -> s_bad s' = false /\ good fmt c (s_mem s') (s_rev s') rr.
Proof.
  intros fmt hash c oracle s s' D RE H. apply reached_inv in RE; auto. destruct D as (D1 & D2 & D3 & D4). cbn [step] in H.
  apply run_revocation_spec in H; auto. destruct H as ((_ & _ & I) & _ & O & _ & H). destruct (H eq_refl) as (i & n & k & F & SZ & K & R & X).
  assert (A: forall x, c_active c <= x < c_active c + c_size c -> s_mem s' x = s_mem s x).
  { intros x Hx. apply O. intros b Hb. pose proof (active_apart c D2 b Hb) as Q. unfold apart in Q. lia. }
  split; [exact A|]. exists i, k. split.
  { apply (fmt_written fmt c D1 (s_mem s) _ (c_active c) _ i n); auto. unfold holds. apply img_read_ext. intros y Hy. apply A.
    pose proof (size_fits fmt c D1 D2 _ _ _ _ F SZ). lia. }
  split; [auto|]. split; [auto|]. intros rr Hr. split; [eauto|]. apply (I rr Hr). eauto.
Qed.
Print Assumptions C44_revoked.

(** A small device for the cases below: images of two bytes, a mark and a manifest ID. *)
Definition toy_fmt (m : image) (a : N) : option fwinfo :=
  if m a =? 77 then Some (FwInfo (Some 2%nat) true (Some (Some 1%Z)) (Some (m (a + 1)))) else None.
Definition toy_hash (ty : nat) (l : list N) : list N := [nth 0 l 0; nth 1 l 0].
Definition toy (need_digest live page_fails : bool) (backup recovery rec_backup : option N) : fcfg :=
  FCfg 0 8 backup recovery rec_backup 8 2 4 4 false need_digest false 0 live page_fails.
Definition toy_cfg : fcfg := toy true false false None (Some 16) None.

(** Active, staging and recovery image with given manifests; a missing one is erased. *)
Definition toy_mem (a s r : option N) : image := fun x =>
  let at_ b o := match o with Some k => if x =? b then 77 else if x =? b + 1 then k else 255 | None => 255 end in
  if x <? 8 then at_ 2 a else if x <? 16 then at_ 10 s else at_ 18 r.
Definition toy_state (m : image) : fst_ := FState m None 1 0 false 0 (upd_init 0 0) None 0 0.

Definition env_ok : env := Env true false (fun _ => false) (fun _ => false) (fun _ => Some 4%nat) None.
Definition env_fail : env := Env false false (fun _ => true) (fun _ => true) (fun _ => None) None.
Definition env_no_write : env := Env true false (fun _ => false) (fun _ => false) (fun _ => None) None.
(** The outside fails at the listed calls and works otherwise. *)
Definition outside_of (fails no_write : list nat) (t : nat) : env :=
  if existsb (Nat.eqb t) fails then env_fail else if existsb (Nat.eqb t) no_write then env_no_write else env_ok.

Lemma toy_format : image_format toy_fmt 6.
Proof.
  unfold image_format, toy_fmt. split; [|split].
  - intros m a i H V. destruct (m a =? 77); [|discriminate]. injection H as <-. eexists. reflexivity.
  - intros m a i n m' a' H L E. destruct (m a =? 77) eqn:X; [|discriminate]. injection H as <-. injection L as <-.
    unfold img_read in E. cbn [seq map] in E. injection E as E1 E2.
    rewrite !N.add_0_r in E1. now rewrite E1, X, E2.
  - intros m a i n H L. destruct (m a =? 77); [|discriminate]. injection H as <-. injection L as <-. lia.
Qed.

Lemma toy_layout : forall d l p b r k,
  (forall x, b = Some x -> x = 24) -> (forall x, r = Some x -> x = 16) -> (forall x, k = Some x -> x = 32) -> layout (toy d l p b r k).
Proof.
  intros d l p b r k Hb Hr Hk. unfold layout, toy, apart. cbn.
  repeat match goal with |- _ /\ _ => split end; try lia; try reflexivity.
  - intros x [X|[X|X]]; [rewrite (Hb x X)|rewrite (Hk x X)|rewrite (Hr x X)]; cbn; intuition (lia || reflexivity).
  - intros x y X [Y|Y]; rewrite (Hr x X); [rewrite (Hb y Y)|rewrite (Hk y Y)]; lia.
Qed.

Lemma toy_device : device toy_fmt toy_cfg.
Proof.
  split; [exact toy_format|]. split; [apply toy_layout; congruence|]. split; [reflexivity|]. intros X. discriminate.
Qed.

Lemma toy_bytes : forall a s r, (forall k, a = Some k \/ s = Some k \/ r = Some k -> byte_ok k) -> bytes_img (toy_mem a s r).
Proof.
  intros a s r H x. unfold toy_mem.
  assert (B: byte_ok 77 /\ byte_ok 255) by (unfold byte_ok; lia). destruct B.
  destruct (x <? 8); [|destruct (x <? 16)]; [destruct a|destruct s|destruct r]; auto;
   repeat match goal with |- context [if ?b then _ else _] => destruct b end; auto.
Qed.

Definition plan : list fop := [Prepare 2; SetDigest 0 [77; 6]; Write [77; 6]; RunUpdate].

Lemma toy_reached : forall c o m b1 b2 b3 l, bytes_img m -> usable toy_fmt c m 1 (c_active c) = true ->
  fair_run toy_fmt toy_hash c o (toy_state m) (Boot b1 b2 b3 :: l) ->
  reached toy_fmt toy_hash c o (run toy_fmt toy_hash c o (toy_state m) (Boot b1 b2 b3 :: l)).
Proof.
  intros c o m b1 b2 b3 l B U F. exists (toy_state m), b1, b2, b3, l. split; [auto|]. split; [|auto].
  intros _. left. now apply usable_good.
Qed.

(** Power is lost while the active image is written: both images were good, only the recovery image is left, the device
    boots it and restores the active image from it. *)
Example C42_case :
  let c := toy_cfg in
  let o := outside_of [] [13]%nat in
  let s0 := toy_state (toy_mem (Some 2) None (Some 2)) in
  let l := Boot false false false :: plan in
  let s1 := run toy_fmt toy_hash c o s0 l in
  let s2 := run toy_fmt toy_hash c o s1 [Boot false false false] in
  device toy_fmt c /\ c_recovery c = Some 16 /\ reached toy_fmt toy_hash c o s1 /\
  usable toy_fmt c (s_mem s1) (s_rev s1) 0 = false /\ usable toy_fmt c (s_mem s1) (s_rev s1) 16 = true /\
  usable toy_fmt c (s_mem s2) (s_rev s2) 0 = true.
Proof.
  cbv zeta. split; [apply toy_device|]. split; [reflexivity|]. split; [|vm_compute; auto].
  apply toy_reached; [|reflexivity|].
  - apply toy_bytes. intros k [X|[X|X]]; inversion X; unfold byte_ok; lia.
  - cbn [fair_run fair plan]. repeat split.
Qed.

(** Full statement of C42: no request needs to be held back.  Wrong if a restore of the active image is asked for while the
    recovery image is recorded as bad: a passing failure to read the good recovery image at boot sets that flag, the
    restore erases the active image and fails, and the next update then starts by erasing the recovery image. *)
Theorem C42_any_request_refuted : exists fmt hash c oracle s0 l,
  device fmt c /\ c_recovery c <> None /\ bytes_img (s_mem s0) /\
  good fmt c (s_mem s0) (s_rev s0) (c_active c) /\ (forall r, c_recovery c = Some r -> good fmt c (s_mem s0) (s_rev s0) r) /\
  In RestoreActive l /\ (forall o, In o l -> o <> CheckRecovery) /\
  let s := run fmt hash c oracle s0 (Boot false false false :: l) in
  ~ boots fmt c (s_mem s) (s_rev s).
Proof.
  exists toy_fmt, toy_hash, toy_cfg, (outside_of [0; 1; 2] [7; 18])%nat, (toy_state (toy_mem (Some 2) None (Some 2))), (RestoreActive :: plan).
  split; [apply toy_device|]. split; [discriminate|]. split.
  { apply toy_bytes. intros k [X|[X|X]]; inversion X; unfold byte_ok; lia. }
  split; [now apply usable_good|]. split.
  { intros r X. injection X as <-. now apply usable_good. }
  split; [now left|]. split.
  { unfold plan. cbn [In]. intros o X. intuition (subst; discriminate). }
  cbv zeta. intros [G|(r & X & G)]; [|injection X as <-]; apply usable_good in G; vm_compute in G; discriminate.
Qed.
Print Assumptions C42_any_request_refuted.

(** Full statement of C42: flash of any kind.  Wrong if a flash may fail to report its page size: the write of the
    recovery image then ends before it starts, but the image is recorded as good. *)
Theorem C42_page_size_refuted : exists fmt hash c oracle s0 l,
  image_format fmt (c_size c - c_off c) /\ layout c /\ stable_manifest c /\ c_recovery c <> None /\ bytes_img (s_mem s0) /\
  good fmt c (s_mem s0) (s_rev s0) (c_active c) /\
  fair_run fmt hash c oracle s0 (Boot false false true :: l) /\
  let s := run fmt hash c oracle s0 (Boot false false true :: l) in
  ~ boots fmt c (s_mem s) (s_rev s).
Proof.
  exists toy_fmt, toy_hash, (toy true false true None (Some 16) None), (outside_of [5] [17])%nat, (toy_state (toy_mem (Some 2) None None)), plan.
  split; [apply toy_format|]. split; [apply toy_layout; congruence|]. split; [intros X; discriminate|]. split; [discriminate|]. split.
  { apply toy_bytes. intros k [X|[X|X]]; inversion X; unfold byte_ok; lia. }
  split; [now apply usable_good|]. split; [cbn [fair_run fair plan]; repeat split|].
  cbv zeta. intros [G|(r & X & G)]; [|injection X as <-]; apply usable_good in G; vm_compute in G; discriminate.
Qed.
Print Assumptions C42_page_size_refuted.

(** Full statement of C44: the oldest allowed manifest after an update is that of the new image.  Wrong if a key manifest
    describes the image loaded last and the recovery image is backed up: the update revokes up to the old image. *)
Theorem C44_stale_manifest_refuted : exists fmt hash c oracle s0 l s s',
  image_format fmt (c_size c - c_off c) /\ layout c /\ c_page_fails c = false /\ bytes_img (s_mem s0) /\
  good fmt c (s_mem s0) (s_rev s0) (c_active c) /\
  s = run fmt hash c oracle s0 (Boot false false false :: l) /\ step fmt hash c oracle s RunUpdate = (s', Ok tt) /\
  exists i k, fmt (s_mem s') (c_active c + c_off c) = Some i /\ i_manifest i = Some k /\ s_rev s' < k.
Proof.
  exists toy_fmt, toy_hash, (toy true true false None (Some 16) (Some 32)), (outside_of [] [])%nat, (toy_state (toy_mem (Some 2) None (Some 2))),
   [Prepare 2; SetDigest 0 [77; 6]; Write [77; 6]].
  eexists _, (fst (step toy_fmt toy_hash _ _ _ RunUpdate)).
  split; [apply toy_format|]. split; [apply toy_layout; congruence|]. split; [reflexivity|]. split.
  { apply toy_bytes. intros k [X|[X|X]]; inversion X; unfold byte_ok; lia. }
  split; [now apply usable_good|]. split; [reflexivity|]. split.
  - match goal with |- ?x = _ => rewrite (surjective_pairing x) end. f_equal.
  - eexists _, 6. vm_compute. auto.
Qed.
Print Assumptions C44_stale_manifest_refuted.

(** Full statement of C43 for an updater that needs a digest: every image it installs was authorised by one.  Wrong after a
    restart: what was staged before is installed without a digest, and none of the announced bytes needs to arrive. *)
Theorem C43_digest_refuted : exists fmt hash c oracle s0 s s',
  device fmt c /\ c_need_digest c = true /\ bytes_img (s_mem s0) /\
  s = run fmt hash c oracle s0 [Boot false false false] /\ s_digest s = None /\
  step fmt hash c oracle s RunUpdate = (s', Ok tt) /\ s_mem s' (c_active c + c_off c + 1) <> s_mem s (c_active c + c_off c + 1).
Proof.
  exists toy_fmt, toy_hash, toy_cfg, (outside_of [] [])%nat, (toy_state (toy_mem (Some 2) (Some 6) (Some 2))).
  eexists _, (fst (step toy_fmt toy_hash _ _ _ RunUpdate)).
  split; [apply toy_device|]. split; [reflexivity|]. split.
  { apply toy_bytes. intros k [X|[X|X]]; inversion X; unfold byte_ok; lia. }
  split; [reflexivity|]. split; [reflexivity|]. split.
  - match goal with |- ?x = _ => rewrite (surjective_pairing x) end. f_equal.
  - vm_compute. discriminate.
Qed.
Print Assumptions C43_digest_refuted.

(** A digest that is shorter than the hash only covers its prefix: images with one prefix of the hash pass alike. *)
Theorem C43_short_digest_refuted : exists fmt hash c oracle s0 s ty d data s',
  device fmt c /\ bytes_img (s_mem s0) /\
  s = run fmt hash c oracle s0 [Boot false false false; Prepare 2; SetDigest ty d; Write data] /\
  s_digest s = Some (ty, d) /\ step fmt hash c oracle s RunUpdate = (s', Ok tt) /\ d <> hash ty data.
Proof.
  exists toy_fmt, toy_hash, toy_cfg, (outside_of [] [])%nat, (toy_state (toy_mem (Some 2) None (Some 2))).
  eexists _, 0%nat, [77], [77; 6], (fst (step toy_fmt toy_hash _ _ _ RunUpdate)).
  split; [apply toy_device|]. split.
  { apply toy_bytes. intros k [X|[X|X]]; inversion X; unfold byte_ok; lia. }
  split; [reflexivity|]. split; [vm_compute; reflexivity|]. split.
  - match goal with |- ?x = _ => rewrite (surjective_pairing x) end. f_equal.
  - discriminate.
Qed.
Print Assumptions C43_short_digest_refuted.

(** Cases that meet the hypotheses of the other theorems: an update from manifest 2 to manifest 6, sent in two pieces. *)
Example C43_case :
  let c := toy_cfg in
  let o := outside_of [] [] in
  let s := run toy_fmt toy_hash c o (toy_state (toy_mem (Some 2) None (Some 2))) [Boot false false false] in
  let l := [Prepare 2; SetDigest 0 [77; 6]; Write [77]; Write [6]; RunUpdate] in
  let s' := run toy_fmt toy_hash c o s l in
  device toy_fmt c /\ reached toy_fmt toy_hash c o s /\ (forall t, works c (o t)) /\
  all_succeed toy_fmt toy_hash c o s l s' /\ s_rev s = 1 /\ s_rev s' = 6 /\ s_mem s' 3 = 6 /\ s_mem s' 19 = 6.
Proof.
  cbv zeta. split; [apply toy_device|]. split.
  { apply toy_reached; [|reflexivity|cbn [fair_run fair]; auto].
    apply toy_bytes. intros k [X|[X|X]]; inversion X; unfold byte_ok; lia. }
  split.
  { intros t. unfold outside_of. cbn [existsb]. unfold works, env_ok. cbn. repeat split. eexists. split; [reflexivity|lia]. }
  split; [|vm_compute; auto]. cbn [all_succeed run].
  repeat (eexists; split; [match goal with |- ?x = _ => rewrite (surjective_pairing x) end; f_equal; vm_compute; reflexivity|]).
  reflexivity.
Qed.

(** A device without a recovery image but with a backup; the write of the new image fails and the old one is put back. *)
Example C42_backup_case :
  let c := toy true false false (Some 24) None None in
  let o := outside_of [] [13]%nat in
  let s := run toy_fmt toy_hash c o (toy_state (toy_mem (Some 2) None None)) [Boot false false false; Prepare 2; SetDigest 0 [77; 6]; Write [77; 6]] in
  let s' := fst (step toy_fmt toy_hash c o s RunUpdate) in
  device toy_fmt c /\ reached toy_fmt toy_hash c o s /\ good toy_fmt c (s_mem s) (s_rev s) (c_active c) /\
  snd (step toy_fmt toy_hash c o s RunUpdate) <> Ok tt.
Proof.
  cbv zeta. split.
  { split; [exact toy_format|]. split; [apply toy_layout; congruence|]. split; [reflexivity|]. intros X. discriminate. }
  split.
  { apply toy_reached; [|reflexivity|cbn [fair_run fair]; repeat split].
    apply toy_bytes. intros k [X|[X|X]]; inversion X; unfold byte_ok; lia. }
  split; [now apply usable_good|]. vm_compute. discriminate.
Qed.
