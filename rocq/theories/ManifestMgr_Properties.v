(** Manifest manager properties (C47, C54). *)
From Coq Require Import List NArith ZArith Lia Bool Arith ZifyBool ZifyNat ZifyN.
From Verif Require Import Base Flash_Base FlashUtil_Model FlashUtil_Proofs FlashUpdater_Model FlashUpdater_Proofs
  ManifestMgr_Model ManifestMgr_Spec ManifestMgr_Proofs ManifestMgr_Step_Proofs ManifestMgr_History_Proofs.
From Verif Require Manifest_Model Manifest_Spec Manifest_Properties.
Import ListNotations.
Local Open Scope N_scope.

(** Any history of starts and calls of a device with any flash and stored active region, with any device faults and results of
    verification.  The device may restart at any point. *)
Definition history {V} (verify : V -> list N -> verdict) (c : mcfg) (m0 : image) (a0 : region) (l : list (sop V))
  (y : sys) (al : list sanswer) : Prop :=
  mcfg_ok c /\ Forall (op_ok c) l /\ honest (fun _ => 0%nat) (combine l al) /\ serial (0%nat, false) (combine l al) /\
  srun V verify c (Down m0 a0) l = (y, al).

(** The contents of the flash after the calls. *)
Definition flash_after {V} (verify : V -> list N -> verdict) (c : mcfg) (m0 : image) (a0 : region) (l : list (sop V)) : image :=
  sflash (fst (srun V verify c (Down m0 a0) l)).

Lemma history_inv : forall V verify c m0 a0 l y al, @history V verify c m0 a0 l y al ->
  legal V c (fun _ => 0%nat) (0%nat, false) (combine l al) /\
  sinv V verify c y (held (combine l al)) (progress_from V (0%nat, false) (combine l al)).
Proof.
  intros V verify c m0 a0 l y al (C & O & H & S & R).
  assert (L: legal V c (fun _ => 0%nat) (0%nat, false) (combine l al)) by (apply legal_intro; auto; now apply combine_ok).
  split; [exact L|]. apply (srun_inv V verify c C l (Down m0 a0)); auto. exact I.
Qed.

Lemma history_app : forall V verify c m0 a0 l1 l2 y' al', @history V verify c m0 a0 (l1 ++ l2) y' al' ->
  exists y al al2, al' = al ++ al2 /\ length al = length l1 /\ length al2 = length l2 /\ history verify c m0 a0 l1 y al /\ srun V verify c y l2 = (y', al2) /\
    legal V c (held (combine l1 al)) (progress_from V (0%nat, false) (combine l1 al)) (combine l2 al2).
Proof.
  intros V verify c m0 a0 l1 l2 y' al' H. destruct (history_inv _ _ _ _ _ _ _ _ H) as (L & _).
  destruct H as (C & O & H & S & R). rewrite srun_app in R.
  destruct (srun V verify c (Down m0 a0) l1) as [y al] eqn:R1. destruct (srun V verify c y l2) as [y2 al2] eqn:R2.
  assert (y2 = y') by congruence. assert (al' = al ++ al2) by congruence. subst y2 al'.
  assert (LE: length l1 = length al) by (pose proof (srun_length V verify c l1 (Down m0 a0)) as Q; rewrite R1 in Q; auto).
  assert (LE2: length l2 = length al2) by (pose proof (srun_length V verify c l2 y) as Q; rewrite R2 in Q; auto).
  exists y, al, al2. rewrite combine_app in * by auto. apply legal_app in L. destruct L as (L1 & L2).
  split; [auto|]. split; [auto|]. split; [auto|]. split; [|split; [auto|exact L2]].
  split; [auto|]. split; [now apply Forall_app in O|].
  assert (HS: forall p q h, @honest V h (p ++ q) -> honest h p).
  { clear. induction p as [|x p IH]; intros q h Q; [exact I|]. cbn in *. destruct Q. split; [auto|]. eapply IH; eauto. }
  assert (SS: forall p q w, @serial V w (p ++ q) -> serial w p).
  { clear. induction p as [|x p IH]; intros q h Q; [exact I|]. cbn in *. destruct Q. split; [auto|]. eapply IH; eauto. }
  split; [exact (HS _ _ _ H)|]. split; [exact (SS _ _ _ S)|]. exact R1.
Qed.

Lemma history_snoc : forall V verify c m0 a0 l o y' al', @history V verify c m0 a0 (l ++ [o]) y' al' ->
  exists y al a, al' = al ++ [a] /\ length al = length l /\ history verify c m0 a0 l y al /\ sstep V verify c y o = (y', a) /\
    sop_legal V c (held (combine l al)) (progress_from V (0%nat, false) (combine l al)) o.
Proof.
  intros V verify c m0 a0 l o y' al' H. destruct (history_app _ _ _ _ _ _ _ _ _ H) as (y & al & al2 & -> & LE & LE2 & H1 & R & L).
  cbn [srun] in R. destruct (sstep V verify c y o) as [y1 a] eqn:ST. injection R as -> <-. exists y, al, a. cbn in L. tauto.
Qed.

Lemma history_flash : forall V verify c m0 a0 l y al, @history V verify c m0 a0 l y al -> flash_after verify c m0 a0 l = sflash y.
Proof. intros V verify c m0 a0 l y al (_ & _ & _ & _ & R). unfold flash_after. now rewrite R. Qed.

Lemma history_same : forall V verify c m0 a0 l y al y' al', @history V verify c m0 a0 l y al -> history verify c m0 a0 l y' al' -> y' = y /\ al' = al.
Proof. intros V verify c m0 a0 l y al y' al' (_ & _ & _ & _ & R) (_ & _ & _ & _ & R'). rewrite R in R'. injection R' as <- <-. auto. Qed.

(** A valid manifest was verified by a start or a call after which its region has not changed. *)
Lemma verified_before : forall V verify c m0 a0 l s r0 al r, @history V verify c m0 a0 l (Up s r0) al -> m_valid s r = true ->
  exists l1 o l2 al1 a al2 v i, l = l1 ++ o :: l2 /\ al = al1 ++ a :: al2 /\ length al1 = length l1 /\ verification o a r v /\
    verify v (contents c (flash_after verify c m0 a0 (l1 ++ [o])) r) = Good i /\ m_info s r = Some i /\
    forall p q, l2 = p ++ q ->
      contents c (flash_after verify c m0 a0 (l1 ++ o :: p)) r = contents c (flash_after verify c m0 a0 (l1 ++ [o])) r.
Proof.
  intros V verify c m0 a0 l. induction l as [|o l IH] using rev_ind; intros s r0 al r H VR.
  - destruct H as (_ & _ & _ & _ & R). discriminate R.
  - destruct (history_snoc _ _ _ _ _ _ _ _ _ H) as (y & al1 & a & -> & LE & H1 & ST & L). pose proof (history_flash _ _ _ _ _ _ _ _ H) as FH. cbn [sflash] in FH.
    pose proof (history_flash _ _ _ _ _ _ _ _ H1) as FH1. assert (C: mcfg_ok c) by apply H. destruct (history_inv _ _ _ _ _ _ _ _ H1) as (_ & I1).
    assert (KEEP: forall s1 r1, y = Up s1 r1 -> m_valid s1 r = true -> m_info s r = m_info s1 r -> contents c (m_flash s) r = contents c (m_flash s1) r ->
      exists l1 o0 l2 al2 a2 al3 v i, l ++ [o] = l1 ++ o0 :: l2 /\ al1 ++ [a] = al2 ++ a2 :: al3 /\ length al2 = length l1 /\ verification o0 a2 r v /\
        verify v (contents c (flash_after verify c m0 a0 (l1 ++ [o0])) r) = Good i /\ m_info s r = Some i /\
        forall p q, l2 = p ++ q ->
          contents c (flash_after verify c m0 a0 (l1 ++ o0 :: p)) r = contents c (flash_after verify c m0 a0 (l1 ++ [o0])) r).
    { intros s1 r1 -> V1 E1 E2. destruct (IH _ _ _ r H1 V1) as (l1 & o0 & l2 & al2 & a2 & al3 & v & i & -> & -> & A1 & A2 & A3 & A4 & A5).
      exists l1, o0, (l2 ++ [o]), al2, a2, (al3 ++ [a]), v, i. rewrite <- !app_assoc. split; [auto|]. split; [auto|]. split; [auto|]. split; [auto|]. split; [auto|]. split; [congruence|].
      intros p q Q. destruct q as [|x q] using rev_ind.
      - rewrite app_nil_r in Q. subst p. rewrite <- app_assoc in FH. cbn [app] in FH. rewrite FH, E2. cbn [sflash] in FH1. rewrite <- FH1. apply (A5 l2 []). now rewrite app_nil_r.
      - rewrite app_assoc in Q. apply app_inj_tail in Q. destruct Q as (Q & _). exact (A5 p q Q). }
    assert (NEW: forall v i, verification o a r v -> verify v (contents c (m_flash s) r) = Good i -> m_info s r = Some i ->
      exists l1 o0 l2 al2 a2 al3 v i, l ++ [o] = l1 ++ o0 :: l2 /\ al1 ++ [a] = al2 ++ a2 :: al3 /\ length al2 = length l1 /\ verification o0 a2 r v /\
        verify v (contents c (flash_after verify c m0 a0 (l1 ++ [o0])) r) = Good i /\ m_info s r = Some i /\
        forall p q, l2 = p ++ q ->
          contents c (flash_after verify c m0 a0 (l1 ++ o0 :: p)) r = contents c (flash_after verify c m0 a0 (l1 ++ [o0])) r).
    { intros v i W1 W2 W3. exists l, o, [], al1, a, [], v, i. rewrite FH. repeat (split; [now auto|]). intros [|x p] q Q; [now rewrite FH|discriminate]. }
    destruct o as [o| |b]; cbn [sstep] in ST.
    + destruct y as [s1 r1|]; [|discriminate]. destruct (step V verify c s1 o) as [s2 a2] eqn:E. injection ST as <- <- <-.
      destruct (step_valid V verify c C _ _ _ _ _ _ r I1 L E VR) as (E2 & [(X1 & X2)|(v & post & i & -> & X2 & X3 & X4 & X5)]).
      * now apply (KEEP s1 r1).
      * apply (NEW v i); auto. cbn. now rewrite X3.
    + destruct y as [s1 r1|]; [|discriminate]. injection ST as <- _ _. now apply (KEEP s1 r1).
    + destruct (init V verify c (sflash y) (sstored y) b) as [m [[s1 x]|]] eqn:E; [|discriminate]. injection ST as <- _ <-.
      destruct (init_spec V verify c C _ _ _ _ _ E s1 x eq_refl) as (_ & _ & _ & X3 & _ & X5 & X6). destruct (X5 r VR) as (X7 & i & X8 & X9).
      apply (NEW (if r then b_v2 V b else b_v1 V b) i); auto.
      * cbn. split; [|auto]. destruct x; [auto|now rewrite (X6 eq_refl) in VR|now elim X3].
      * now rewrite X7.
Qed.

(** A manifest that a client gets was verified by the last start or by a call to verify, and its region has not changed since. *)
Theorem C47_offered : forall V verify c m0 a0 l k y al r, @history V verify c m0 a0 (l ++ [Call V (GetEnd V k)]) y (al ++ [Answer (Manifest r)]) ->
  exists l1 o l2 al1 a al2 v i, l = l1 ++ o :: l2 /\ al = al1 ++ a :: al2 /\ length al1 = length l1 /\ verification o a r v /\
    verify v (contents c (flash_after verify c m0 a0 (l1 ++ [o])) r) = Good i /\
    forall p q, l2 = p ++ q ->
      contents c (flash_after verify c m0 a0 (l1 ++ o :: p)) r = contents c (flash_after verify c m0 a0 (l1 ++ [o])) r.
Proof.
  intros V verify c m0 a0 l k y al r H. destruct (history_snoc _ _ _ _ _ _ _ _ _ H) as (y1 & al1 & a & E & LE & H1 & ST & L).
  apply app_inj_tail in E. destruct E as (<- & <-). cbn [sstep] in ST. destruct y1 as [s1 r1|]; [|discriminate].
  cbn [step] in ST. unfold get_end in ST. destruct (nth_error (m_getting s1) k) as [[q b]|]; [|discriminate].
  destruct (m_valid s1 q) eqn:VQ; [|discriminate]. assert (q = r) by congruence. subst q.
  destruct (verified_before V verify c m0 a0 l s1 r1 al r H1 VQ) as (l1 & o0 & l2 & al2 & a2 & al3 & v & i & A1 & A2 & A3 & A4 & A5 & _ & A6).
  exists l1, o0, l2, al2, a2, al3, v, i. auto 10.
Qed.
Print Assumptions C47_offered.

(** No call changes a region whose manifest somebody has. *)
Theorem C47_in_use : forall V verify c m0 a0 l o y' al' r, @history V verify c m0 a0 (l ++ [o]) y' al' ->
  (forall b, o <> Reboot V b) -> (0 < held (combine l al') r)%nat ->
  contents c (flash_after verify c m0 a0 (l ++ [o])) r = contents c (flash_after verify c m0 a0 l) r.
Proof.
  intros V verify c m0 a0 l o y' al' r H NR P. destruct (history_snoc _ _ _ _ _ _ _ _ _ H) as (y1 & al1 & a & -> & LE & H1 & ST & L).
  assert (E: combine l (al1 ++ [a]) = combine l al1).
  { rewrite <- (app_nil_r l) at 1. rewrite combine_app by auto. apply app_nil_r. }
  rewrite E in P. destruct (history_inv _ _ _ _ _ _ _ _ H1) as (_ & I1). assert (C: mcfg_ok c) by apply H.
  rewrite (history_flash _ _ _ _ _ _ _ _ H), (history_flash _ _ _ _ _ _ _ _ H1). destruct o as [o| |b]; cbn [sstep] in ST.
  - destruct y1 as [s1 r1|]; [|injection ST as <- _; auto]. destruct (step V verify c s1 o) as [s2 a2] eqn:S2. injection ST as <- _.
    destruct (step_inv V verify c C _ _ _ _ _ _ I1 L S2) as (_ & F). cbn [sflash].
    destruct (F r) as [Q|(Q & _)]; [exact Q|]. cbn [sinv] in I1. rewrite (i_ref _ _ _ _ _ _ I1 r) in Q. lia.
  - destruct y1 as [s1 r1|]; injection ST as <- _; auto.
  - now elim (NR b).
Qed.
Print Assumptions C47_in_use.

(** While there is an active manifest, a manifest is pending only if both were good when they were verified, the pending one has a
    higher id and its platform may replace that of the active one. *)
Theorem C47_pending_newer : forall V verify c m0 a0 l s r al la lp, @history V verify c m0 a0 l (Up s r) al ->
  offered c s true = Some la -> offered c s false = Some lp ->
  exists va ia vp ip, verify va la = Good ia /\ verify vp lp = Good ip /\ i_id ia < i_id ip /\
    compatible (sku_upgrade c) (i_platform ia) (i_platform ip).
Proof.
  intros V verify c m0 a0 l s r al la lp H A P. destruct (history_inv _ _ _ _ _ _ _ _ H) as (_ & I1). cbn [sinv] in I1.
  unfold offered in A, P. destruct (m_valid s (m_active s)) eqn:VA; [|discriminate]. destruct (m_valid s (negb (m_active s))) eqn:VP; [|discriminate].
  injection A as <-. injection P as <-. destruct (i_info _ _ _ _ _ _ I1 _ VA) as (ia & A1 & va & A2). destruct (i_info _ _ _ _ _ _ I1 _ VP) as (ip & P1 & vp & P2).
  exists va, ia, vp, ip. destruct (i_newer _ _ _ _ _ _ I1 ia ip VA VP A1 P1) as (N1 & N2). auto.
Qed.
Print Assumptions C47_pending_newer.

(** The active manifest changes only if an activation succeeds, which replaces it by the pending one, or everything is cleared; a
    manifest becomes pending only by a call to verify, and stops being pending only if it is activated or cleared. *)
Theorem C47_changes : forall V verify c m0 a0 l o s r s' r' al a, @history V verify c m0 a0 l (Up s r) al ->
  history verify c m0 a0 (l ++ [Call V o]) (Up s' r') (al ++ [Answer a]) ->
  (o = Activate V -> a = Done -> offered c s' true = offered c s false /\ offered c s false <> None /\ offered c s' false = None) /\
  (match o with Activate _ => a <> Done | ClearAll _ _ _ => False | _ => True end -> offered c s' true = offered c s true) /\
  (match o with ClearAll _ _ _ => offered c s' true = offered c s true \/ offered c s' true = None | _ => True end) /\
  (forall d, offered c s' false = Some d -> offered c s false = Some d \/
     exists v post i, o = Verify V v post /\ a = (if post then Done else PostFailed) /\ verify v d = Good i) /\
  (forall d, offered c s false = Some d -> offered c s' false = Some d \/
     offered c s' false = None /\ match o with Activate _ => a = Done | ClearStart _ _ => a = Nothing | ClearAll _ _ _ => True | _ => False end).
Proof.
  intros V verify c m0 a0 l o s r s' r' al a H1 H. destruct (history_snoc _ _ _ _ _ _ _ _ _ H) as (y1 & al1 & b & E & LE & H2 & ST & L).
  destruct (history_same _ _ _ _ _ _ _ _ _ _ H1 H2) as (-> & ->). assert (b = Answer a) by (apply app_inj_tail in E; symmetry; now destruct E). subst b. clear E H2.
  cbn [sstep] in ST. destruct (step V verify c s o) as [s2 a2] eqn:S2. injection ST as -> -> ->.
  destruct (history_inv _ _ _ _ _ _ _ _ H1) as (_ & I1). cbn [sinv] in I1. assert (C: mcfg_ok c) by apply H.
  destruct (step_inv V verify c C _ _ _ _ _ _ I1 L S2) as (I2 & F).
  assert (SV := fun q => step_valid V verify c C _ _ _ _ _ _ q I1 L S2).
  assert (OFF: forall x : bool, m_active s' = m_active s -> m_valid s' (if x then m_active s else negb (m_active s)) = m_valid s (if x then m_active s else negb (m_active s)) ->
     offered c s' x = offered c s x).
  { intros x X1 X2. unfold offered. rewrite X1, X2. destruct (m_valid s _) eqn:VX; [|auto]. f_equal. apply SV; congruence. }
  assert (CA: forall f1 f2, o = ClearAll V f1 f2 -> m_active s' = m_active s).
  { intros f1 f2 ->. cbn [step] in S2. assert (NC: m_clearing s = None).
    { pose proof (i_clear _ _ _ _ _ _ I1) as Q. destruct L as (_ & _ & L). cbn in L. destruct (m_clearing s); [destruct Q; congruence|auto]. }
    now destruct (clear_all_spec V verify c C _ _ _ _ _ _ _ I1 NC S2) as (_ & _ & Z & _). }
  split; [|split; [|split; [|split]]].
  - intros -> ->. destruct (step_active V verify c _ _ _ _ S2 ltac:(discriminate)) as [(_ & _ & _ & X)|(_ & _ & X1 & X2 & X3 & X4 & X5 & X6)]; [now elim (X eq_refl)|].
    unfold offered. rewrite X1, X2, X3, X6, negb_involutive, X4. repeat split; auto; discriminate.
  - intros N. destruct (step_active V verify c _ _ _ _ S2) as [(X1 & X2 & _)|(-> & -> & _)]; [intros f1 f2 ->; exact N| |now elim N]. now apply (OFF true).
  - destruct o as [| | | | | | | |f1 f2]; auto. specialize (CA f1 f2 eq_refl). unfold offered. rewrite CA. destruct (m_valid s' (m_active s)) eqn:V1; [|auto].
    destruct (SV _ V1) as (X1 & [(X2 & _)|(v & post & i & X2 & _)]); [|discriminate]. rewrite X1, X2. auto.
  - intros d D. unfold offered in D. destruct (m_valid s' (negb (m_active s'))) eqn:V1; [|discriminate]. injection D as <-.
    assert (AC: m_active s' = m_active s).
    { destruct (match o with ClearAll _ _ _ => true | _ => false end) eqn:CO; [destruct o; try discriminate; eauto|].
      destruct (step_active V verify c _ _ _ _ S2) as [(X & _)|(_ & _ & X1 & _ & _ & X4 & _)]; [intros f1 f2 ->; discriminate|auto|].
      rewrite X1, negb_involutive in V1. congruence. }
    destruct (SV _ V1) as (X1 & [(X2 & _)|(v & post & i & X2 & X3 & X4 & X5 & X6)]).
    + left. unfold offered. rewrite <- AC, X2, X1. auto.
    + right. exists v, post, i. auto.
  - intros d D. unfold offered in D. destruct (m_valid s (negb (m_active s))) eqn:V1; [|discriminate]. injection D as <-.
    destruct (match o with ClearAll _ _ _ => true | _ => false end) eqn:CO.
    + destruct o as [| | | | | | | |f1 f2]; try discriminate. specialize (CA f1 f2 eq_refl). unfold offered. rewrite CA.
      destruct (m_valid s' (negb (m_active s))) eqn:V2; [|auto]. left. now rewrite (proj1 (SV _ V2)).
    + destruct (step_active V verify c _ _ _ _ S2) as [(X & _ & _ & X0)|(-> & -> & X1 & _ & _ & X4 & _)]; [intros f1 f2 ->; discriminate| |].
      * unfold offered. rewrite X. destruct (m_valid s' (negb (m_active s))) eqn:V2; [left; now rewrite (proj1 (SV _ V2))|]. right. split; [auto|].
        destruct (step_pending V verify c _ _ _ _ S2 V1 V2) as [->|[(n & -> & ->)|(f1 & f2 & ->)]]; auto.
        exfalso. apply (X0 eq_refl). cbn [step] in S2. unfold activate in S2. rewrite V1 in S2. congruence.
      * right. split; [|auto]. unfold offered. now rewrite X1, negb_involutive, X4.
Qed.
Print Assumptions C47_changes.

(** No update is in progress. *)
Definition idle (y : sys) : Prop := match y with Up s _ => m_updating s = None | Down _ _ => True end.

Lemma clear_manifest_idle : forall c s r f s' a, clear_manifest c s r f = (s', a) -> m_updating s' = m_updating s.
Proof.
  intros c s r f s' a H. unfold clear_manifest in H. destruct (m_ref s r =? 0)%nat; [|injection H as <- _; auto].
  destruct (erase_region _ _ _ _ _) as [m x]. injection H as <- _. auto.
Qed.
Lemma clear_all_idle : forall c s f1 f2 s' a, m_updating s = None -> clear_all c s f1 f2 = (s', a) -> m_updating s' = None.
Proof.
  intros c s f1 f2 s' a U H. unfold clear_all in H. destruct (clear_manifest c s (get_region s false) f1) as [s1 a1] eqn:C1.
  apply clear_manifest_idle in C1. destruct a1; try (injection H as <- _; congruence). apply clear_manifest_idle in H. exact H.
Qed.
Lemma check_id_idle : forall s, m_updating (fst (check_pending_id s)) = m_updating s.
Proof. intros s. unfold check_pending_id. repeat match goal with |- context [match ?x with _ => _ end] => destruct x end; reflexivity. Qed.
Lemma check_platform_idle : forall c s, m_updating (fst (check_pending_platform c s)) = m_updating s.
Proof. intros c s. unfold check_pending_platform. repeat match goal with |- context [match ?x with _ => _ end] => destruct x end; reflexivity. Qed.
Lemma init_idle : forall V verify c m a b s x, snd (init V verify c m a b) = Some (s, x) -> m_updating s = None.
Proof.
  intros V verify c m a b s x H. unfold init in H.
  assert (VR: forall s0 r v s1, verify_region V verify c s0 r v = Some s1 -> m_updating s1 = m_updating s0).
  { intros s0 r v s1 Y. unfold verify_region in Y. destruct (verify v _); try discriminate; injection Y as <-; reflexivity. }
  match type of H with context [verify_region V verify c ?s0 false _] => set (z := s0) in * end.
  destruct (verify_region V verify c z false (b_v1 V b)) as [s1|] eqn:V1; [|discriminate]. apply VR in V1.
  destruct (verify_region V verify c s1 true (b_v2 V b)) as [s2|] eqn:V2; [|discriminate]. apply VR in V2.
  pose proof (check_id_idle s2) as V3. set (s3 := fst (check_pending_id s2)) in *. clearbody s3.
  pose proof (check_platform_idle c s3) as V4. destruct (check_pending_platform c s3) as [s4 a4]. cbn [fst] in V4.
  assert (U: m_updating s4 = None) by (rewrite V4, V3, V2, V1; reflexivity).
  assert (CE: forall s5 x5, check_empty c s4 (b_empty V b) (b_f1 V b) (b_f2 V b) = (s5, x5) -> m_updating s5 = None).
  { intros s5 x5 Y. unfold check_empty in Y. destruct (m_valid s4 _); [|injection Y as <- _; auto].
    destruct (b_empty V b); [injection Y as <- _; auto|]. destruct (m_info s4 _) as [i|]; [|injection Y as <- _; auto].
    destruct (i_empty i); [|injection Y as <- _; auto]. destruct (clear_all c s4 (b_f1 V b) (b_f2 V b)) as [s6 a6] eqn:CA.
    apply clear_all_idle in CA; [|exact U]. destruct a6; injection Y as <- _; auto. }
  destruct (check_empty c s4 (b_empty V b) (b_f1 V b) (b_f2 V b)) as [s5 x5]. specialize (CE s5 x5 eq_refl).
  destruct a4, x5; try discriminate; cbn [snd] in H; injection H as <- _; exact CE.
Qed.
Lemma sstep_idle : forall V verify c y o, idle y -> (forall n, o <> Call V (ClearStart V n)) -> idle (fst (sstep V verify c y o)).
Proof.
  intros V verify c y o U NC. destruct o as [o| |b]; cbn [sstep].
  - destruct y as [s r|]; [|exact Logic.I]. cbn [idle] in U. destruct (step V verify c s o) as [s1 a] eqn:E. cbn [fst idle].
    destruct o; cbn [step] in E.
    + injection E as <- _. exact U.
    + unfold get_end in E. destruct (nth_error _ _) as [[q b]|]; [|injection E as <- _; exact U]. injection E as <- _. exact U.
    + injection E as <- _. exact U.
    + unfold activate in E. repeat match type of E with context [if ?x then _ else _] => destruct x end; injection E as <- _; exact U.
    + now elim (NC size).
    + unfold clear_end in E. rewrite U in E. destruct (m_clearing s); injection E as <- _; [reflexivity|exact U].
    + unfold write in E. rewrite U in E. injection E as <- _. exact U.
    + unfold verify_pending in E. match type of E with (let '(s, x) := ?p in _) = _ => destruct p as [s2 x] end. injection E as <- _. reflexivity.
    + eapply clear_all_idle; eauto.
  - destruct y; [exact U|exact Logic.I].
  - destruct (init V verify c (sflash y) (sstored y) b) as [m [[s x]|]] eqn:E; cbn [fst idle]; [|exact Logic.I].
    eapply (init_idle V verify c (sflash y) (sstored y) b s x). rewrite E. reflexivity.
Qed.
Lemma verify_idle : forall V verify c y v post, idle (fst (sstep V verify c y (Call V (Verify V v post)))).
Proof.
  intros. cbn [sstep]. destruct y as [s r|]; [|exact Logic.I]. destruct (step V verify c s (Verify V v post)) as [s1 a] eqn:E. cbn [fst idle].
  cbn [step] in E. unfold verify_pending in E. match type of E with (let '(s, x) := ?p in _) = _ => destruct p as [s2 x] end. injection E as <- _. reflexivity.
Qed.
Lemma srun_idle : forall V verify c l y, idle y -> (forall n, ~ In (Call V (ClearStart V n)) l) -> idle (fst (srun V verify c y l)).
Proof.
  intros V verify c. induction l as [|o l IH]; intros y U NC; cbn [srun]; [exact U|].
  pose proof (sstep_idle V verify c y o U) as X. destruct (sstep V verify c y o) as [y1 a]. cbn [fst] in X.
  specialize (IH y1). destruct (srun V verify c y1 l) as [y2 b]. cbn [fst] in *. apply IH; [apply X|].
  - intros n E. apply (NC n). left. exact E.
  - intros n E. apply (NC n). right. exact E.
Qed.

(** Data is refused, and nothing changes, if the pending region was not cleared since the last verification or, without one, since the
    beginning. *)
Theorem C47_refused : forall V verify c m0 a0 l1 l2 d f s r s' r' al a,
  @history V verify c m0 a0 (l1 ++ l2) (Up s r) al -> history verify c m0 a0 ((l1 ++ l2) ++ [Call V (Write V d f)]) (Up s' r') (al ++ [Answer a]) ->
  l1 = [] \/ (exists l v post, l1 = l ++ [Call V (Verify V v post)]) -> (forall n, ~ In (Call V (ClearStart V n)) l2) ->
  a = NotCleared /\ s' = s.
Proof.
  intros V verify c m0 a0 l1 l2 d f s r s' r' al a H1 H D NC.
  assert (U: idle (Up s r)).
  { destruct H1 as (_ & _ & _ & _ & R). rewrite srun_app in R.
    assert (U1: idle (fst (srun V verify c (Down m0 a0) l1))).
    { destruct D as [-> | (l & v & post & ->)]; [exact Logic.I|]. rewrite srun_app. destruct (srun V verify c (Down m0 a0) l) as [y b].
      cbn [srun]. pose proof (verify_idle V verify c y v post) as X. destruct (sstep V verify c y _) as [y1 z]. exact X. }
    destruct (srun V verify c (Down m0 a0) l1) as [y b]. pose proof (srun_idle V verify c l2 y U1 NC) as X.
    destruct (srun V verify c y l2) as [y2 b2]. injection R as -> _. exact X. }
  destruct (history_snoc _ _ _ _ _ _ _ _ _ H) as (y1 & al1 & b & E & LE & H2 & ST & L).
  destruct (history_same _ _ _ _ _ _ _ _ _ _ H1 H2) as (-> & ->). apply app_inj_tail in E as [_ <-].
  cbn [sstep step] in ST. unfold write in ST. cbn [idle] in U. rewrite U in ST. injection ST as -> _ ->. auto.
Qed.
Print Assumptions C47_refused.

(** A call to get a manifest, with nothing between its halves, returns what is offered. *)
Theorem C47_get : forall V verify c s active s1 a1 s2 a2, step V verify c s (GetStart V active) = (s1, a1) ->
  step V verify c s1 (GetEnd V (length (m_getting s))) = (s2, a2) ->
  match offered c s active with
  | Some d => exists r, a2 = Manifest r /\ contents c (m_flash s2) r = d
  | None => a2 = NoManifest
  end.
Proof.
  intros V verify c s active s1 a1 s2 a2 H1 H2. cbn [step] in H1. injection H1 as <- <-. cbn [step] in H2. unfold get_end, get_start in H2.
  cbn [m_getting m_valid m_flash m_ref m_upd m_info m_updating m_active m_clearing] in H2.
  rewrite nth_error_app2, Nat.sub_diag in H2 by lia. cbn [nth_error] in H2. injection H2 as <- <-. unfold offered. cbn [m_flash].
  change (if active then m_active s else negb (m_active s)) with (get_region s active). destruct (m_valid s (get_region s active)); eauto.
Qed.
Print Assumptions C47_get.

(** Results of verification differ only if an engine fails. *)
Definition steady {V} (verify : V -> list N -> verdict) : Prop :=
  forall v v' l i, verify v l = Good i -> verify v' l = Good i \/ verify v' l = Fails.

(** The writes of an update, all with success. *)
Fixpoint all_written {V} (verify : V -> list N -> verdict) (c : mcfg) (s : mgr) (ds : list (list N)) (f : faults) : option mgr :=
  match ds with
  | [] => Some s
  | d :: q => match step V verify c s (Write V d f) with (s1, Done) => all_written verify c s1 q f | _ => None end
  end.

Lemma all_written_spec : forall V verify c f ds s s' r, m_updating s = Some r -> @all_written V verify c s ds f = Some s' ->
  exists u m, write_all (f_write f) (m_upd s r) (m_flash s) ds = Some (u, m) /\
    s' = Mgr m (m_valid s) (m_ref s) (m_upd s') (m_info s) (Some r) (m_active s) (m_getting s) (m_clearing s) /\ m_upd s' r = u.
Proof.
  intros V verify c f. induction ds as [|d ds IH]; intros s s' r U H; cbn [all_written write_all] in *.
  - injection H as <-. exists (m_upd s r), (m_flash s). split; [auto|]. split; [|auto]. destruct s; cbn in *. now subst.
  - cbn [step] in H. unfold write in H. rewrite U in H. destruct (upd_write (f_write f) (m_upd s r) (m_flash s) d) as [[u1 m1] x] eqn:W.
    destruct x; try discriminate. set (s1 := Mgr m1 (m_valid s) (m_ref s) (set (m_upd s) r u1) (m_info s) (Some r) (m_active s) (m_getting s) (m_clearing s)) in *.
    destruct (IH s1 s' r eq_refl H) as (u & m & A1 & A2 & A3). cbn [s1 m_upd m_flash] in A1. rewrite set_same in A1.
    exists u, m. auto.
Qed.

(** A complete update: clear, write the announced amount of data, verify.  The region then begins with the data that was written, in
    order; it becomes the pending manifest if and only if it is good and replaces the active one by a higher id for a compatible
    platform; and the call says so, unless the users of the manager refuse it. *)
Theorem C47_update : forall V verify c m0 a0 l s r0 al n f1 f2 v post s1 s2 s3 s4 ds a, steady verify ->
  @history V verify c m0 a0 l (Up s r0) al -> progress_from V (0%nat, false) (combine l al) = (0%nat, false) ->
  bytes_ok (concat ds) -> (forall d, In d ds -> N.of_nat (length d) + r_size c < 2 ^ 32) -> n = N.of_nat (length (concat ds)) ->
  step V verify c s (ClearStart V n) = (s1, Nothing) -> step V verify c s1 (ClearEnd V f1) = (s2, Done) ->
  all_written verify c s2 ds f2 = Some s3 -> step V verify c s3 (Verify V v post) = (s4, a) ->
  let new := contents c (m_flash s3) (negb (m_active s)) in
  let accepted := exists i, verify v new = Good i /\
     forall old vo io, offered c s true = Some old -> verify vo old = Good io -> i_id io < i_id i /\ compatible (sku_upgrade c) (i_platform io) (i_platform i) in
  firstn (length (concat ds)) new = concat ds /\
  (a = Done <-> accepted /\ post = true) /\ (a = PostFailed <-> accepted /\ post = false) /\
  (accepted -> offered c s4 false = Some new) /\ (~ accepted -> offered c s4 false = None) /\
  offered c s4 true = offered c s true.
Proof.
  intros until a. intros ST H PR BO DL -> S1 S2 W S4 new accepted. destruct (history_inv _ _ _ _ _ _ _ _ H) as (_ & I1). cbn [sinv] in I1. rewrite PR in I1.
  assert (C: mcfg_ok c) by apply H. set (r := negb (m_active s)) in *. destruct (i_upd _ _ _ _ _ _ I1 r) as (U1 & U2 & U3). pose proof (mc_end c C r) as RE.
  pose proof S1 as S1'. cbn [step] in S1. unfold clear_start in S1. unfold get_region in S1. fold r in S1. destruct (Nat.eqb_spec (m_ref s r) 0) as [R|R]; [|discriminate].
  unfold upd_check_size in S1. rewrite U2 in S1. destruct (N.ltb_spec (r_size c) (N.of_nat (length (concat ds)))) as [L|L]; [discriminate|].
  injection S1 as <-. cbn [step] in S2. unfold clear_end in S2. cbn [m_clearing m_updating m_upd m_flash m_valid m_ref m_active m_getting] in S2.
  pose proof (prepare_spec (f_read f1) (f_erase f1) (r_blk c) (mc_blk c C) (m_upd s r) (m_flash s) (N.of_nat (length (concat ds))) (u_max (m_upd s r)) (r_base c r) (r_size c)) as P.
  fold (prepare_erase_all (f_read f1) (f_erase f1) (r_blk c) (m_upd s r) (m_flash s) (N.of_nat (length (concat ds)))) in P.
  destruct (prepare_erase_all (f_read f1) (f_erase f1) (r_blk c) (m_upd s r) (m_flash s) (N.of_nat (length (concat ds)))) as [[u m] x].
  destruct P as (_ & PF & P); [split; lia|lia|]. destruct x; try discriminate. destruct (P eq_refl) as (_ & P2 & P3). clear P. injection S2 as <-.
  match type of W with all_written _ _ ?x _ _ = _ => destruct (all_written_spec V verify c f2 ds x s3 r eq_refl W) as (u3 & m3 & A1 & A2 & A3) end.
  cbn [m_upd m_flash m_valid m_ref m_active m_getting m_clearing m_info] in A1, A2.
  rewrite set_same, P2 in A1.
  pose proof (fun a b c d e f => write_all_spec (f_write f2) ds _ m u3 m3 (N.of_nat (length (concat ds))) a b c d e f A1) as X.
  cbn [u_base u_max u_off u_size] in X. rewrite U1, U2, N.add_0_r in X.
  destruct X as (_ & X2 & X3 & X4); auto; try lia. { rewrite U1, U2 in P3. intros z Z. apply P3. lia. }
  assert (FR: firstn (length (concat ds)) new = concat ds).
  { unfold new. rewrite A2. cbn [m_flash]. unfold contents. rewrite <- X2 at 2. unfold img_read.
    rewrite firstn_map. f_equal. clear - L.
    assert (E: forall k b n, (k <= n)%nat -> firstn k (seq b n) = seq b k).
    { induction k as [|k IH]; intros b [|n0] Q; cbn; auto; [lia|]. f_equal. apply IH. lia. }
    apply E. lia. }
  split; [exact FR|].
  assert (NR: m_active s <> r) by (unfold r; now destruct (m_active s)).
  assert (CA: contents c m3 (m_active s) = contents c (m_flash s) (m_active s)).
  { apply (contents_apart c C (m_flash s) m3 r); [auto|]. intros z Z. rewrite X3, PF; auto. intros B. apply (Z z); [lia|reflexivity]. }
  assert (E1: m_flash s3 = m3) by (rewrite A2; reflexivity). unfold new in FR |- *. rewrite E1 in FR |- *. unfold new in accepted. clear new.
  cbn [step] in S4. unfold verify_pending in S4. rewrite A2 in S4. cbn [m_upd m_flash m_valid m_ref m_active m_getting m_clearing m_updating m_info] in S4.
  unfold remaining_bytes in S4. rewrite A3, X4 in S4.
  assert (Z: (0 <? Z.of_N (N.of_nat (length (concat ds))) - Z.of_nat (length (concat ds)))%Z = false) by lia. rewrite Z in S4. clear Z.
  unfold get_region in S4. cbn [m_active] in S4. fold r in S4. rewrite set_same in S4. set (new := contents c m3 r) in *.
  assert (NOT: forall s5, m_valid s5 r = false -> m_valid s5 (m_active s) = m_valid s (m_active s) -> m_active s5 = m_active s -> m_flash s5 = m3 ->
     ~ accepted -> a <> Done -> a <> PostFailed -> s4 = with_updating s5 None ->
     (a = Done <-> accepted /\ post = true) /\ (a = PostFailed <-> accepted /\ post = false) /\ (accepted -> offered c s4 false = Some new) /\
     (~ accepted -> offered c s4 false = None) /\ offered c s4 true = offered c s true).
  { intros s5 Y1 Y2 Y3 Y4 Y5 Y6 Y7 ->. split; [tauto|]. split; [tauto|]. split; [tauto|].
    unfold offered. cbn [with_updating m_active m_valid m_flash]. rewrite Y3. fold r. rewrite Y1, Y2, Y4, CA. auto. }
  destruct (verify v new) as [i| |] eqn:VE.
  2,3: injection S4 as <- <-; match goal with |- context [with_updating ?x None] => apply (NOT x) end; cbn [m_valid m_active m_flash]; auto; try discriminate;
    [apply set_same|rewrite !set_other by auto; auto|intros (j & J & _); rewrite E1 in J; fold new in J; congruence].
  set (sv := set (set (m_valid s) r false) r true) in *.
  set (s5 := Mgr m3 sv (m_ref s) (m_upd s3) (set (m_info s) r (Some i)) (Some r) (m_active s) (m_getting s) None) in *.
  assert (VA: sv (m_active s) = m_valid s (m_active s)) by (unfold sv; rewrite !set_other by auto; auto).
  assert (HI: forall q, m_valid s5 q = true -> exists j, ManifestMgr_Proofs.verified V verify c s5 q j).
  { intros q Q. destruct (Bool.eqb_spec q r) as [->|N].
    - exists i. split; [apply set_same|]. exists v. exact VE.
    - assert (q = m_active s) by (unfold r in N; destruct q, (m_active s); cbn in *; congruence). subst q. cbn [s5 m_valid] in Q. rewrite VA in Q.
      destruct (i_info _ _ _ _ _ _ I1 _ Q) as (j & J1 & w & J2). exists j. split; [cbn [s5 m_info]; rewrite set_other; auto|]. exists w. cbn [s5 m_flash]. now rewrite CA. }
  pose proof (compare_pending V verify c s5 HI) as CP. cbn zeta in CP.
  destruct CP as (b & B1 & B2 & B3 & B4 & B5 & B6 & B7 & B8 & B9 & B10 & B11).
  change (m_active s5) with (m_active s) in *. fold r in B3, B4, B7. change (m_valid s5) with sv in *.
  assert (SR: sv r = true) by (unfold sv; apply set_same). rewrite SR, andb_true_r in B4.
  assert (ACC: accepted <-> b = true).
  { rewrite B7. split.
    - intros (j & J1 & J2) ia ip V1 _ M1 M2. rewrite E1 in J1. fold new in J1. assert (j = i) by congruence. subst j.
      cbn [s5 m_info] in M1, M2. rewrite set_same in M2. injection M2 as <-. rewrite set_other in M1 by auto. rewrite VA in V1.
      destruct (i_info _ _ _ _ _ _ I1 _ V1) as (j & K1 & w & K2). assert (j = ia) by congruence. subst j.
      apply (J2 (contents c (m_flash s) (m_active s)) w ia); [|auto]. unfold offered. now rewrite V1.
    - intros Q. exists i. split; [rewrite E1; auto|]. intros old vo io O1 O2. unfold offered in O1. destruct (m_valid s (m_active s)) eqn:V1; [|discriminate]. injection O1 as <-.
      destruct (i_info _ _ _ _ _ _ I1 _ V1) as (j & K1 & w & K2). assert (io = j) by (destruct (ST vo w _ _ O2) as [Y|Y]; congruence). subst j.
      assert (N: newer c io i).
      { apply Q; auto; cbn [s5 m_info]; [rewrite set_other; auto|apply set_same]. }
      exact N. }
  destruct (check_pending_id s5) as [s6 a6] eqn:E6. cbn [fst snd] in *.
  assert (FIN: forall s7, m_valid s7 r = b -> m_valid s7 (m_active s) = m_valid s (m_active s) -> m_active s7 = m_active s -> m_flash s7 = m3 ->
     (b = true -> a = if post then Done else PostFailed) -> (b = false -> a <> Done /\ a <> PostFailed) -> s4 = with_updating s7 None ->
     (a = Done <-> accepted /\ post = true) /\ (a = PostFailed <-> accepted /\ post = false) /\ (accepted -> offered c s4 false = Some new) /\
     (~ accepted -> offered c s4 false = None) /\ offered c s4 true = offered c s true).
  { intros s7 Y1 Y2 Y3 Y4 Y5 Y6 Y7. destruct b.
    - rewrite (Y5 eq_refl). split; [destruct post; split; [tauto|tauto|discriminate|intros (_ & Q); discriminate]|].
      split; [destruct post; split; [discriminate|intros (_ & Q); discriminate|tauto|tauto]|]. rewrite Y7.
      unfold offered. cbn [with_updating m_active m_valid m_flash]. rewrite Y3. fold r. rewrite Y1, Y2, Y4, CA. repeat split; auto. tauto.
    - apply (NOT s7); auto; try (apply Y6; auto). rewrite ACC. discriminate. }
  destruct B8 as [->| ->].
  - specialize (B11 eq_refl). subst s6. destruct (check_pending_platform c s5) as [s7 a7] eqn:E7. cbn [fst snd] in *.
    assert (F7: m_active s7 = m_active s /\ m_flash s7 = m3) by (rewrite B2; auto). destruct F7 as (F7 & F8).
    apply (FIN s7); auto.
    + rewrite B3 by auto. exact VA.
    + intros Q. destruct (proj1 B6 Q) as (_ & ->). congruence.
    + intros Q. destruct B10 as [->| ->]; [|split; congruence]. pose proof (proj2 B6 (conj eq_refl eq_refl)). congruence.
    + destruct B10 as [->| ->]; congruence.
  - assert (BF: b = false) by (destruct b; [destruct (proj1 B6 eq_refl); discriminate|auto]). rewrite BF in FIN. clear - FIN S4 E6 VA NR.
    unfold check_pending_id in E6. destruct (_ && _); [destruct (compare_id _ _)|]; try discriminate. injection E6 as <-.
    injection S4 as <- <-. match goal with |- context [with_updating ?x None] => apply (FIN x) end; cbn [with_valid m_valid m_active m_flash]; auto; try discriminate.
    + unfold get_region. change (m_active s5) with (m_active s). fold r. apply set_same.
    + unfold get_region. change (m_active s5) with (m_active s). fold r. rewrite set_other by auto. exact VA.
    + split; discriminate.
Qed.
Print Assumptions C47_update.

(** While nothing clears the manifests or tampers with the stored region, the active manifest is never lost, and its id never goes
    down, over any number of updates, activations and restarts. *)
Definition at_least {V} (verify : V -> list N -> verdict) (c : mcfg) (n : N) (y : sys) : Prop :=
  match y with
  | Up s _ => m_valid s (m_active s) = true /\ exists i, m_info s (m_active s) = Some i /\ n <= i_id i
  | Down m r => exists v i, verify v (contents c m r) = Good i /\ n <= i_id i
  end.

Lemma sstep_at_least : forall V verify c y h w o y' a n, steady verify -> mcfg_ok c -> sinv V verify c y h w -> sop_legal V c h w o ->
  sstep V verify c y o = (y', a) -> undisturbed verify c y [o] -> at_least verify c n y -> at_least verify c n y'.
Proof.
  intros V verify c y h w o y' a n ST C I0 L H U K. destruct o as [o| |b].
  - cbn [sstep] in H. destruct y as [s r|m r]; [|injection H as <- _; exact K]. destruct (step V verify c s o) as [s1 a1] eqn:E. injection H as <- <-.
    destruct K as (K1 & i & K2 & K3). cbn [sinv] in I0.
    destruct (step_active V verify c s o s1 a1 E) as [(X1 & X2 & X3 & _)|(-> & -> & X1 & X2 & X3 & X4 & X5 & X6)].
    { intros f1 f2 ->. now destruct U. }
    + cbn [at_least]. rewrite X1, X2, X3. eauto.
    + cbn [at_least]. rewrite X1, X3, X5. split; [auto|]. destruct (i_info _ _ _ _ _ _ I0 _ X2) as (j & J1 & _).
      exists j. split; [auto|]. destruct (i_newer _ _ _ _ _ _ I0 i j K1 X2 K2 J1) as (N1 & _). lia.
  - cbn [sstep] in H. destruct y as [s r|m r]; injection H as <- _; exact K.
  - cbn [undisturbed] in U. rewrite H in U. cbn [fst snd] in U. destruct U as ((U1 & U2 & U3) & _).
    assert (G: exists v i, verify v (contents c (sflash y) (sstored y)) = Good i /\ n <= i_id i).
    { destruct y as [s r|m r]; [|exact K]. destruct K as (K1 & i & K2 & K3). cbn [sflash sstored]. rewrite U1.
      destruct (i_info _ _ _ _ _ _ I0 _ K1) as (j & J1 & v & J2). exists v, j. split; [auto|]. congruence. }
    destruct G as (v & i & G1 & G2). cbn [sstep] in H. destruct (init V verify c (sflash y) (sstored y) b) as [m [[s1 x]|]] eqn:E; injection H as <- <-.
    + destruct (init_spec V verify c C _ _ _ _ _ E s1 x eq_refl) as (X0 & X1 & X2 & X3 & X4 & X5 & X6).
      destruct x; [|now elim U2|now elim X3]. destruct (X4 eq_refl) as (X7 & X8). cbn [at_least]. rewrite X2.
      assert (VG: verify (if sstored y then b_v2 V b else b_v1 V b) (contents c (sflash y) (sstored y)) = Good i).
      { destruct (ST v (if sstored y then b_v2 V b else b_v1 V b) _ _ G1) as [Q|Q]; [exact Q|]. exfalso. clear - E Q.
        unfold init, verify_region in E. cbn [m_flash m_valid m_info] in E. destruct (sstored y).
        - destruct (verify (b_v1 V b) _); [..|discriminate]; cbn [m_flash m_valid m_info] in E; rewrite Q in E; discriminate.
        - rewrite Q in E. discriminate. }
      destruct (X8 _ i eq_refl VG) as (Y1 & Y2). eauto.
    + cbn [at_least]. cbn [sflash] in U3. rewrite U3. eauto.
Qed.

Lemma srun_at_least : forall V verify c n l y h w y' al, steady verify -> mcfg_ok c -> sinv V verify c y h w -> legal V c h w (combine l al) ->
  srun V verify c y l = (y', al) -> undisturbed verify c y l -> at_least verify c n y -> at_least verify c n y'.
Proof.
  intros V verify c n. induction l as [|o l IH]; intros y h w y' al ST C I0 L R U K; cbn [srun] in R.
  - injection R as <- <-. exact K.
  - destruct (sstep V verify c y o) as [y1 a] eqn:E. destruct (srun V verify c y1 l) as [y2 b] eqn:E2. injection R as <- <-.
    cbn [combine legal fst] in L. destruct L as (L1 & L2). pose proof U as U'. cbn [undisturbed] in U. rewrite E in U. cbn [fst snd] in U. destruct U as (U1 & U2).
    apply (IH y1 (held1 h (o, a)) (progress1 w (o, a)) y2 b); auto.
    + exact (sstep_inv V verify c C _ _ _ _ _ _ I0 L1 E).
    + apply (sstep_at_least V verify c y h w o y1 a n); auto. cbn [undisturbed]. rewrite E. cbn [fst snd]. auto.
Qed.

Theorem C54_no_rollback : forall V verify c m0 a0 l1 l2 s1 r1 al1 s2 r2 al2 old v i, steady verify ->
  @history V verify c m0 a0 l1 (Up s1 r1) al1 -> offered c s1 true = Some old -> verify v old = Good i ->
  history verify c m0 a0 (l1 ++ l2) (Up s2 r2) al2 -> undisturbed verify c (Up s1 r1) l2 ->
  exists new v' i', offered c s2 true = Some new /\ verify v' new = Good i' /\ i_id i <= i_id i'.
Proof.
  intros until i. intros ST H1 O G H2 U. destruct (history_app _ _ _ _ _ _ _ _ _ H2) as (y & al & al3 & E & LE & LE2 & H3 & R & L).
  destruct (history_same _ _ _ _ _ _ _ _ _ _ H1 H3) as (-> & ->). assert (C: mcfg_ok c) by apply H1.
  destruct (history_inv _ _ _ _ _ _ _ _ H1) as (_ & I1). unfold offered in O. destruct (m_valid s1 (m_active s1)) eqn:VA; [|discriminate]. injection O as <-.
  assert (K: at_least verify c (i_id i) (Up s1 r1)).
  { split; [auto|]. cbn [sinv] in I1. destruct (i_info _ _ _ _ _ _ I1 _ VA) as (j & J1 & w & J2). exists j. split; [auto|].
    destruct (ST v w _ _ G) as [Q|Q]; [|congruence]. assert (j = i) by congruence. subst. lia. }
  pose proof (srun_at_least V verify c (i_id i) l2 _ _ _ _ _ ST C I1 L R U K) as (K1 & j & K2 & K3).
  destruct (history_inv _ _ _ _ _ _ _ _ H2) as (_ & I2). cbn [sinv] in I2. destruct (i_info _ _ _ _ _ _ I2 _ K1) as (j' & J1 & w & J2).
  exists (contents c (m_flash s2) (m_active s2)), w, j'. unfold offered. rewrite K1. split; [auto|]. split; [auto|]. congruence.
Qed.
Print Assumptions C54_no_rollback.

(** With the manifests of Manifest_Model: a manifest at the start of its region, of which [e] says whether it is empty and [bad] which
    errors are put down to the manifest (manifest_manager_flash.c:33-37). *)
Definition region_image (d : list N) : image := fun a => nth (N.to_nat a) d 255.
Definition flash_manifest (hash : N -> list N -> list N) (sig_ok : list N -> list N -> bool) (mc : Manifest_Model.mcfg)
  (bad : Manifest_Model.merr -> bool) (e : Manifest_Model.mstate -> bool) (v : (nat -> bool) * Manifest_Model.mstate * (nat * list N)) (d : list N) : verdict :=
  match Manifest_Model.verify hash sig_ok mc (Manifest_Spec.stable (region_image d)) (fst (fst v)) (snd (fst v)) (snd v) with
  | (_, Manifest_Model.Ok m) => Good (Info (Manifest_Model.h_id (Manifest_Model.s_header m)) (Manifest_Model.s_platform m) (e m))
  | (_, Manifest_Model.Err x) => if bad x then Bad else Fails
  end.

(** Then what is offered is signed: the signature that follows the data is good for it, and the id that is compared is the signed one. *)
Theorem C47_signed : forall hash sig_ok mc bad e c m0 a0 l s r al active d,
  let verify := flash_manifest hash sig_ok mc bad e in
  history verify c m0 a0 l (Up s r) al -> Manifest_Model.c_addr mc = 0 -> Manifest_Model.c_size mc < 2 ^ 32 ->
  offered c s active = Some d -> bytes_ok d ->
  let h := Manifest_Model.parse_header (img_read (region_image d) 0 12) in
  exists n i, N.of_nat n + Manifest_Model.h_sig h = Manifest_Model.h_length h /\ (12 <= n)%nat /\
    sig_ok (hash (N.land (Manifest_Model.h_sigtype h) 7 + 1) (img_read (region_image d) 0 n))
           (img_read (region_image d) (N.of_nat n) (N.to_nat (Manifest_Model.h_sig h))) = true /\
    m_info s (if active then m_active s else negb (m_active s)) = Some i /\ i_id i = Manifest_Model.h_id h.
Proof.
  intros hash sig_ok mc bad e c m0 a0 l s r al active d verify H A S O B h. destruct (history_inv _ _ _ _ _ _ _ _ H) as (_ & I1). cbn [sinv] in I1.
  unfold offered in O. set (q := if active then m_active s else negb (m_active s)) in *. destruct (m_valid s q) eqn:VQ; [|discriminate]. injection O as O.
  destruct (i_info _ _ _ _ _ _ I1 q VQ) as (i & J1 & v & J2). rewrite O in J2. unfold verify, flash_manifest in J2.
  destruct (Manifest_Model.verify _ _ _ _ _ _ _) as [t [m|x]] eqn:E; [|destruct (bad x); discriminate]. injection J2 as <-.
  apply Manifest_Properties.C45_flash in E; [|intros a; unfold region_image; destruct (Nat.lt_ge_cases (N.to_nat a) (length d)) as [Q|Q];
     [exact (proj1 (Forall_forall _ _) B _ (nth_In _ _ Q))|rewrite nth_overflow by lia; lia]|auto|lia].
  destruct E as (n & E1 & E2 & E3 & E4). rewrite A, N.add_0_l in *. fold h in E3. rewrite E3 in *. exists n. eexists. split; [auto|]. split; [auto|]. split; [auto|]. split; [exact J1|]. reflexivity.
Qed.
Print Assumptions C47_signed.

(** A concrete manager: manifests begin with 1, their id and their platform; [false] is a failure of the engines. *)
Definition toy_verify (v : bool) (l : list N) : verdict :=
  if v then match l with 1 :: n :: p :: _ => Good (Info n [p] (p =? 0)) | _ => Bad end else Fails.
Definition toy_cfg : mcfg := MCfg (fun r => if r then 64 else 0) 32 16 false.
Definition toy_flash : image := fun x => if x =? 0 then 1 else if x =? 1 then 5 else if x =? 2 then 7 else 255.
Definition works : faults := Faults (fun _ => false) (fun _ => false) (fun _ => Some 100%nat).
Definition reboot : sop bool := Reboot bool (Boot bool true true false works works).
Definition update (ds : list (list N)) (post : bool) : list (sop bool) :=
  map (Call bool) ([ClearStart bool (N.of_nat (length (concat ds))); ClearEnd bool works] ++ map (fun d => Write bool d works) ds ++ [Verify bool true post]).
Definition get (active : bool) : list (sop bool) := [Call bool (GetStart bool active); Call bool (GetEnd bool 0)].
Definition toy_run (l : list (sop bool)) : sys * list sanswer := srun bool toy_verify toy_cfg (Down toy_flash false) l.
Definition ids (y : sys) : option N * option N :=
  match y with
  | Up s _ => let id a := match offered toy_cfg s a with Some d => match toy_verify true d with Good i => Some (i_id i) | _ => None end | None => None end in
              (id true, id false)
  | Down _ _ => (None, None)
  end.

Lemma toy_ok : mcfg_ok toy_cfg.
Proof.
  constructor; cbn.
  - reflexivity.
  - intros []; reflexivity.
  - intros x y X Y E. assert (x / 16 <= 1) by (pose proof (N.div_lt_upper_bound x 16 2); lia).
    assert (4 <= y / 16) by (apply N.div_le_lower_bound; lia). lia.
Qed.
Lemma toy_steady : steady toy_verify.
Proof. intros v v' l i H. destruct v'; [|now right]. left. destruct v; [exact H|discriminate]. Qed.

(** An update from id 5 to id 6 while the active manifest is in use. *)
Definition toy_history : list (sop bool) := [reboot] ++ get true ++ update [[1; 6]; [7]] true ++ get false.
Definition toy_answers : list sanswer :=
  [Start Booted; Answer Nothing; Answer (Manifest false); Answer Nothing; Answer Done; Answer Done; Answer Done; Answer Done; Answer Nothing; Answer (Manifest true)].

Lemma toy_history_ok : forall l al, snd (toy_run l) = al -> Forall (op_ok toy_cfg) l -> honest (fun _ => 0%nat) (combine l al) -> serial (0%nat, false) (combine l al) ->
  history toy_verify toy_cfg toy_flash false l (fst (toy_run l)) al.
Proof. intros l al <- A B D. split; [apply toy_ok|]. split; [auto|]. split; [auto|]. split; [auto|]. apply surjective_pairing. Qed.

Example C47_history : history toy_verify toy_cfg toy_flash false toy_history (fst (toy_run toy_history)) toy_answers /\
  held (combine toy_history toy_answers) false = 1%nat /\ held (combine toy_history toy_answers) true = 1%nat /\
  ids (fst (toy_run toy_history)) = (Some 5, Some 6).
Proof.
  split; [apply toy_history_ok; [vm_compute; reflexivity|repeat constructor|vm_compute; repeat split; auto|vm_compute; repeat split; auto]|].
  repeat split; vm_compute; reflexivity.
Qed.

(** Clearing is refused while the pending manifest is in use; then an activation, which the region that is stored follows, and a restart:
    6 stays active. *)
Definition toy_rest : list (sop bool) :=
  [Call bool (ClearStart bool 3); Call bool (Free bool true); Call bool (Free bool false); Call bool (Activate bool); Store bool; reboot] ++
  update [[1; 4]; [7]] true ++ update [[1; 9]; [8]] true ++ update [[1; 8]; [7]] true ++ [Call bool (Activate bool)].
Fixpoint calm (y : sys) (l : list (sop bool)) : bool :=
  match l with
  | [] => true
  | o :: q =>
    match o with
    | Call _ (ClearAll _ _ _) => false
    | Reboot _ _ => match y with Up s r => Bool.eqb r (m_active s) | Down _ _ => true end &&
                    match snd (sstep bool toy_verify toy_cfg y o) with Start Booted => true | _ => false end
    | _ => true
    end && calm (fst (sstep bool toy_verify toy_cfg y o)) q
  end.
Lemma calm_ok : forall l y, calm y l = true -> undisturbed toy_verify toy_cfg y l.
Proof.
  induction l as [|o l IH]; intros y H; [exact I|]. cbn [calm undisturbed] in *. apply andb_true_iff in H. destruct H as (H1 & H2). split; [|now apply IH].
  destruct o as [[]| |b]; auto; try discriminate. apply andb_true_iff in H1. destruct H1 as (H1 & H3).
  split; [destruct y; [now apply Bool.eqb_prop|exact I]|]. clear H1 H2 IH. cbn [sstep] in *.
  destruct (init bool toy_verify toy_cfg (sflash y) (sstored y) b) as [m [[s x]|]] eqn:E; cbn [fst snd] in *; [|discriminate].
  destruct x; try discriminate. destruct (init_spec bool toy_verify toy_cfg toy_ok _ _ _ _ _ E s Booted eq_refl) as (_ & _ & _ & _ & X & _).
  split; [discriminate|]. exact (proj1 (X eq_refl)).
Qed.
Example C54_history : history toy_verify toy_cfg toy_flash false (toy_history ++ toy_rest) (fst (toy_run (toy_history ++ toy_rest)))
    (toy_answers ++ [Answer InUse; Answer Nothing; Answer Nothing; Answer Done; NoAnswer; Start Booted;
                     Answer Nothing; Answer Done; Answer Done; Answer Done; Answer InvalidId;
                     Answer Nothing; Answer Done; Answer Done; Answer Done; Answer Incompatible;
                     Answer Nothing; Answer Done; Answer Done; Answer Done; Answer Done; Answer Done]) /\
  undisturbed toy_verify toy_cfg (fst (toy_run toy_history)) toy_rest /\ ids (fst (toy_run (toy_history ++ toy_rest))) = (Some 8, None).
Proof.
  split; [apply toy_history_ok; [vm_compute; reflexivity|repeat constructor|vm_compute; repeat split; auto|vm_compute; repeat split; auto]|].
  split; [apply calm_ok; vm_compute; reflexivity|vm_compute; reflexivity].
Qed.

(** The steps of an update. *)
Example C47_update_case : exists s r s1 s2 s3 s4, toy_run [reboot] = (Up s r, [Start Booted]) /\
  step bool toy_verify toy_cfg s (ClearStart bool 3) = (s1, Nothing) /\ step bool toy_verify toy_cfg s1 (ClearEnd bool works) = (s2, Done) /\
  all_written toy_verify toy_cfg s2 [[1; 6]; [7]] works = Some s3 /\ step bool toy_verify toy_cfg s3 (Verify bool true true) = (s4, Done).
Proof.
  destruct (toy_run [reboot]) as [[s r|m r] al] eqn:R.
  2: { apply (f_equal (fun x => match fst x with Up _ _ => true | _ => false end)) in R. vm_compute in R. discriminate. }
  assert (AL: al = [Start Booted]) by (apply (f_equal snd) in R; vm_compute in R; congruence). subst al.
  set (s1 := fst (step bool toy_verify toy_cfg s (ClearStart bool 3))).
  set (s2 := fst (step bool toy_verify toy_cfg s1 (ClearEnd bool works))).
  assert (E: s = match fst (toy_run [reboot]) with Up s _ => s | Down _ _ => s end) by now rewrite R.
  destruct (all_written toy_verify toy_cfg s2 [[1; 6]; [7]] works) as [s3|] eqn:W.
  2: { exfalso. apply (f_equal (fun x => match x with Some _ => true | None => false end)) in W. unfold s2, s1 in W. rewrite E in W. vm_compute in W. discriminate. }
  exists s, r, s1, s2, s3. eexists. split; [auto|].
  split; [rewrite (surjective_pairing (step _ _ _ s _)); apply f_equal2; [reflexivity|rewrite E; vm_compute; reflexivity]|].
  split; [rewrite (surjective_pairing (step _ _ _ s1 _)); apply f_equal2; [reflexivity|unfold s1; rewrite E; vm_compute; reflexivity]|]. split; [exact W|].
  rewrite (surjective_pairing (step _ _ _ s3 _)). apply f_equal2; [reflexivity|].
  apply (f_equal (fun x => match x with Some y => Some (snd (step bool toy_verify toy_cfg y (Verify bool true true))) | None => None end)) in W.
  unfold s2, s1 in W. rewrite E in W. vm_compute in W. vm_compute. congruence.
Qed.

(** A signed manifest with id 7 in the first region. *)
Definition signed_cfg : mcfg := MCfg (fun r => if r then 4096 else 0) 4096 4096 false.
Example C47_signed_case : exists s r, srun _ (flash_manifest Manifest_Properties.toy_hash Manifest_Properties.toy_sig Manifest_Properties.toy_cfg (fun _ => true) (fun _ => false)) signed_cfg
    (Down Manifest_Properties.toy_img false)
    [Reboot _ (Boot _ (fun _ => true, Manifest_Model.no_state, (0%nat, [])) (fun _ => true, Manifest_Model.no_state, (0%nat, [])) false works works)] = (Up s r, [Start Booted]) /\
  option_map i_id (m_info s false) = Some 7 /\ m_valid s false = true /\ m_active s = false.
Proof.
  match goal with |- context [srun ?a ?b ?c ?d ?e] => destruct (srun a b c d e) as [[s r|m r] al] eqn:R end.
  2: { apply (f_equal (fun x => match fst x with Up _ _ => true | _ => false end)) in R. vm_compute in R. discriminate. }
  exists s, r.
  assert (AL: al = [Start Booted]) by (apply (f_equal snd) in R; vm_compute in R; congruence). subst al. split; [auto|].
  apply (f_equal (fun x => match fst x with Up s _ => (option_map i_id (m_info s false), m_valid s false, m_active s) | Down _ _ => (None, false, false) end)) in R.
  vm_compute in R. cbn [fst] in R. injection R as R1 R2 R3. auto.
Qed.

(** If the users of the manager refuse a manifest after it has been verified, the call fails but the manifest stays pending, and can
    be activated. *)
Theorem C47_post_verify_refuted : exists l al,
  history toy_verify toy_cfg toy_flash false l (fst (toy_run l)) (al ++ [Answer PostFailed; Answer Done]) /\ ids (fst (toy_run l)) = (Some 6, None).
Proof.
  exists ([reboot] ++ update [[1; 6; 7]] false ++ [Call bool (Activate bool)]), [Start Booted; Answer Nothing; Answer Done; Answer Done].
  split; [apply toy_history_ok; [vm_compute; reflexivity|repeat constructor|vm_compute; repeat split; auto|vm_compute; repeat split; auto]|]. vm_compute. reflexivity.
Qed.
Print Assumptions C47_post_verify_refuted.

(** An activation between the two halves of a call that gets the active manifest: the call returns nothing and still keeps its
    reference, so that the region cannot be cleared again until a restart although nobody has its manifest. *)
Theorem C47_lost_reference_refuted : exists l al, snd (toy_run (l ++ [Call bool (ClearStart bool 3)])) = al ++ [Answer InUse] /\
  (forall r, held (combine l al) r = 0%nat) /\ honest (fun _ => 0%nat) (combine l al) /\
  match fst (toy_run l) with Up s _ => m_getting s = [] /\ m_clearing s = None | Down _ _ => False end.
Proof.
  exists ([reboot] ++ update [[1; 6; 7]] true ++ [Call bool (GetStart bool true); Call bool (Activate bool); Call bool (GetEnd bool 0)]).
  exists [Start Booted; Answer Nothing; Answer Done; Answer Done; Answer Done; Answer Nothing; Answer Done; Answer NoManifest].
  split; [vm_compute; reflexivity|]. split; [intros []; reflexivity|]. split; [vm_compute; repeat split; auto|]. vm_compute. auto.
Qed.
Print Assumptions C47_lost_reference_refuted.

(** A verification between the two halves of a call that gets the pending manifest: the call returns the manifest without a reference,
    and the region is then erased while the manifest is in use. *)
Theorem C47_unprotected_manifest_refuted : exists l al, snd (toy_run (l ++ [Call bool (ClearStart bool 3); Call bool (ClearEnd bool works)])) = al ++ [Answer Nothing; Answer Done] /\
  held (combine l al) true = 1%nat /\ honest (fun _ => 0%nat) (combine l al) /\
  contents toy_cfg (sflash (fst (toy_run (l ++ [Call bool (ClearStart bool 3); Call bool (ClearEnd bool works)])))) true <> contents toy_cfg (sflash (fst (toy_run l))) true.
Proof.
  exists ([reboot] ++ firstn 3 (update [[1; 6; 7]] true) ++ [Call bool (GetStart bool false); Call bool (Verify bool true true); Call bool (GetEnd bool 0)]).
  exists [Start Booted; Answer Nothing; Answer Done; Answer Done; Answer Nothing; Answer Done; Answer (Manifest true)].
  split; [vm_compute; reflexivity|]. split; [reflexivity|]. split; [vm_compute; repeat split; auto|]. vm_compute. discriminate.
Qed.
Print Assumptions C47_unprotected_manifest_refuted.

(** An activation is in memory only until the state is stored in the background: a restart before that brings the old manifest back,
    although the call that activated the new one succeeded. *)
Theorem C54_power_loss_refuted : exists l al, history toy_verify toy_cfg toy_flash false (l ++ [reboot]) (fst (toy_run (l ++ [reboot]))) (al ++ [Answer Done; Start Booted]) /\
  ids (fst (toy_run l)) = (Some 6, None) /\ ids (fst (toy_run (l ++ [reboot]))) = (Some 5, Some 6).
Proof.
  exists ([reboot] ++ update [[1; 6; 7]] true ++ [Call bool (Activate bool)]), [Start Booted; Answer Nothing; Answer Done; Answer Done; Answer Done].
  split; [apply toy_history_ok; [vm_compute; reflexivity|repeat constructor|vm_compute; repeat split; auto|vm_compute; repeat split; auto]|]. split; vm_compute; reflexivity.
Qed.
Print Assumptions C54_power_loss_refuted.
