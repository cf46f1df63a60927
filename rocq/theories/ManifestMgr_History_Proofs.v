(** Proofs about the manifest manager: histories of calls and restarts. *)
From Coq Require Import List NArith ZArith Lia Bool Arith ZifyBool ZifyNat ZifyN.
From Verif Require Import Base Flash_Base FlashUtil_Model FlashUtil_Proofs FlashUpdater_Model FlashUpdater_Proofs
  ManifestMgr_Model ManifestMgr_Spec ManifestMgr_Proofs ManifestMgr_Step_Proofs.
Import ListNotations.
Local Open Scope N_scope.

Section Proofs.
Variable V : Type.
Variable verify : V -> list N -> verdict.
Variable c : mcfg.
Hypothesis C : mcfg_ok c.

Notation inv := (inv V verify c).
Notation verified := (verified V verify c).
Notation frame := (frame c).
Notation step := (step V verify c).
Notation sstep := (sstep V verify c).
Notation srun := (srun V verify c).

(** How a region comes to be valid. *)
Lemma step_valid : forall s h w o s' a r, inv s h w -> op_legal V c h w o -> step s o = (s', a) -> m_valid s' r = true ->
  contents c (m_flash s') r = contents c (m_flash s) r /\
  (m_valid s r = true /\ m_info s' r = m_info s r \/
   exists v post i, o = Verify V v post /\ r = negb (m_active s) /\ a = (if post then Done else PostFailed) /\ m_info s' r = Some i /\
     verify v (contents c (m_flash s') r) = Good i).
Proof.
  intros s h w o s' a r I0 L H VR. destruct (step_inv V verify c C s h w o s' a I0 L H) as (I1 & F).
  destruct (F r) as [E|(_ & E)]; [|congruence]. split; [exact E|]. clear F.
  destruct o as [act|k|q| |n|f|d f|v post|f1 f2]; cbn [ManifestMgr_Model.step] in H.
  - injection H as <- _. left. split; auto.
  - left. unfold get_end in H. destruct (nth_error (m_getting s) k) as [[q b]|]; injection H as <- _; auto.
  - injection H as <- _. left. split; auto.
  - left. unfold activate in H. destruct (m_valid s (negb (m_active s))); injection H as <- _; prj; auto. apply set_false in VR. now destruct VR.
  - left. unfold clear_start in H. destruct (Nat.eqb _ _); [destruct (upd_check_size _ _)|]; injection H as <- _; prj; auto. apply set_false in VR. now destruct VR.
  - left. unfold clear_end in H. destruct (m_clearing s); [destruct (m_updating s)|]; [destruct (prepare_erase_all _ _ _ _ _ _) as [[u m] x]| |]; injection H as <- _; auto.
  - left. unfold write in H. destruct (m_updating s); [destruct (upd_write _ _ _ _) as [[u m] x]|]; injection H as <- _; auto.
  - unfold verify_pending in H.
    destruct (match m_updating s with Some q => _ | None => false end); [injection H as <- _; auto|].
    unfold get_region in H. set (p := negb (m_active s)) in *.
    destruct (m_valid s p) eqn:VP; [injection H as <- _; auto|].
    destruct (m_updating s) as [q|] eqn:UP; [|injection H as <- _; auto].
    assert (BAD: forall x, m_valid x r = set (m_valid s) p false r -> m_valid x r = true -> m_valid s r = true /\ r <> p).
    { intros x X Y. rewrite X in Y. apply set_false in Y. tauto. }
    destruct (verify v (contents c (m_flash s) p)) as [i| |] eqn:VE.
    2,3: injection H as <- _; prj; apply set_false in VR; destruct VR as (X1 & X2); left; split; [auto|now rewrite set_other].
    set (s1 := Mgr (m_flash s) (set (m_valid s) p true) (m_ref s) (m_upd s) (set (m_info s) p (Some i)) (Some q) (m_active s) (m_getting s) (m_clearing s)) in *.
    assert (HI: forall r, m_valid s1 r = true -> exists j, verified s1 r j).
    { intros r0 R. unfold s1 in *. prj. destruct (Bool.eqb_spec r0 p) as [->|N].
      - exists i. split; prj; [apply set_same|eauto].
      - rewrite set_other in R by auto. destruct (i_info _ _ _ _ _ _ I0 r0 R) as (j & J1 & J2). exists j. split; [prj; now rewrite set_other|exact J2]. }
    pose proof (compare_pending V verify c s1 HI) as CP. cbn zeta in CP.
    destruct CP as (b & B1 & B2 & B3 & B4 & B5 & B6 & B7 & B8 & B9 & B10 & B11).
    assert (AP: m_active s1 = m_active s) by reflexivity. rewrite AP in *. fold p in B3, B4, B7.
    destruct (check_pending_id s1) as [s2 a2] eqn:E2. cbn [fst snd] in *.
    destruct B8 as [->| ->].
    + specialize (B11 eq_refl). subst s2. destruct (check_pending_platform c s1) as [s3 a3] eqn:E3. cbn [fst snd] in *.
      assert (S3: m_valid s' = m_valid s3 /\ m_info s' = m_info s1 /\ m_flash s' = m_flash s1 /\ (a3 = Done -> a = if post then Done else PostFailed)).
      { destruct B10 as [->| ->]; injection H as <- <-; prj; rewrite B2; repeat split; auto; discriminate. }
      destruct S3 as (S3 & S4 & S5 & S6). rewrite S3 in VR. destruct (Bool.eqb_spec r p) as [->|N].
      * right. exists v, post, i. split; [auto|]. split; [auto|]. rewrite VR in B4. destruct b; [|discriminate].
        destruct (proj1 B6 eq_refl) as (_ & ->). split; [auto|]. split; [rewrite S4; apply set_same|]. now rewrite E.
      * left. rewrite B3 in VR by auto. unfold s1 in VR. prj. rewrite set_other in VR by auto. split; [auto|]. rewrite S4. unfold s1. prj. now rewrite set_other.
    + injection H as <- _. prj. unfold check_pending_id in E2. destruct (_ && _); [destruct (compare_id _ _)|]; try discriminate. injection E2 as <-. prj.
      unfold get_region in VR. apply set_false in VR. change (m_active s1) with (m_active s) in VR. fold p in VR. destruct VR as (X1 & X2). left.
      unfold s1 in *. prj. rewrite set_other in X2 by auto. rewrite set_other by auto. auto.
  - left. unfold clear_all in H.
    assert (Z: forall x q0 f s'' a'', clear_manifest c x q0 f = (s'', a'') -> m_info s'' = m_info x /\ (m_valid s'' r = true -> m_valid x r = true)).
    { clear. intros x q0 f s'' a'' H. unfold clear_manifest in H. destruct (Nat.eqb _ _); [|injection H as <- _; auto].
      destruct (erase_region _ _ _ _ _) as [m e]. destruct e; injection H as <- _; prj; split; auto; intros Y; apply set_false in Y; tauto. }
    destruct (clear_manifest c s (get_region s false) f1) as [s1 a1] eqn:E1. destruct (Z _ _ _ _ _ E1) as (Z1 & Z2).
    destruct a1; try (assert (s' = s1) by congruence; subst s'; rewrite Z1; now auto). destruct (Z _ _ _ _ _ H) as (Z3 & Z4). prj. rewrite Z3, Z1. auto.
Qed.

(** What happens to the active manifest and to the pending one. *)
Lemma step_active : forall s o s' a, step s o = (s', a) -> (forall f1 f2, o <> ClearAll V f1 f2) ->
  (m_active s' = m_active s /\ m_valid s' (m_active s) = m_valid s (m_active s) /\ m_info s' (m_active s) = m_info s (m_active s) /\
     (o = Activate V -> a <> Done)) \/
  (o = Activate V /\ a = Done /\ m_active s' = negb (m_active s) /\ m_valid s (negb (m_active s)) = true /\
     m_valid s' (negb (m_active s)) = true /\ m_valid s' (m_active s) = false /\ m_info s' = m_info s /\ m_flash s' = m_flash s).
Proof.
  clear C. intros s o s' a H NC. assert (NN: m_active s <> negb (m_active s)) by (now destruct (m_active s)).
  destruct o as [act|k|q| |n|f|d f|v post|f1 f2]; cbn [ManifestMgr_Model.step] in H.
  - injection H as <- _. left. repeat split; auto. discriminate.
  - left. unfold get_end in H. destruct (nth_error (m_getting s) k) as [[q b]|]; injection H as <- _; repeat split; auto; discriminate.
  - injection H as <- _. left. repeat split; auto. discriminate.
  - unfold activate in H. destruct (m_valid s (negb (m_active s))) eqn:VP; injection H as <- <-; prj.
    + right. rewrite set_same, set_other by auto. repeat split; auto.
    + left. repeat split; auto. discriminate.
  - left. unfold clear_start in H. destruct (Nat.eqb _ _); [destruct (upd_check_size _ _)|]; injection H as <- _; prj; repeat split; auto; try discriminate.
    unfold get_region. now rewrite set_other.
  - left. unfold clear_end in H. destruct (m_clearing s); [destruct (m_updating s)|]; [destruct (prepare_erase_all _ _ _ _ _ _) as [[u m] x]| |]; injection H as <- _; repeat split; auto; discriminate.
  - left. unfold write in H. destruct (m_updating s); [destruct (upd_write _ _ _ _) as [[u m] x]|]; injection H as <- _; repeat split; auto; discriminate.
  - left. assert (G: forall x, m_active x = m_active s -> m_valid x (m_active s) = m_valid s (m_active s) -> m_info x (m_active s) = m_info s (m_active s) ->
       s' = with_updating x None -> m_active s' = m_active s /\ m_valid s' (m_active s) = m_valid s (m_active s) /\ m_info s' (m_active s) = m_info s (m_active s) /\
     (Verify V v post = Activate V -> a <> Done)) by (intros x X1 X2 X3 ->; prj; repeat split; auto; discriminate).
    unfold verify_pending in H.
    destruct (match m_updating s with Some q => _ | None => false end); [injection H as <- _; now apply (G s)|].
    unfold get_region in H. set (p := negb (m_active s)) in *.
    destruct (m_valid s p) eqn:VP; [injection H as <- _; now apply (G s)|].
    destruct (m_updating s) as [q|] eqn:UP; [|injection H as <- _; now apply (G s)].
    destruct (verify v (contents c (m_flash s) p)) as [i| |].
    2,3: injection H as <- _; match goal with |- context [with_updating ?x None] => apply (G x) end; prj; try rewrite set_other; auto.
    set (s1 := Mgr (m_flash s) (set (m_valid s) p true) (m_ref s) (m_upd s) (set (m_info s) p (Some i)) (Some q) (m_active s) (m_getting s) (m_clearing s)) in *.
    assert (K: forall x y z, m_active x = m_active s -> check_pending_id x = (y, z) -> m_active y = m_active x /\ m_valid y (m_active s) = m_valid x (m_active s) /\ m_info y = m_info x).
    { clear - NN. intros x y z A H. unfold check_pending_id, get_region in H. destruct (_ && _); [destruct (compare_id _ _)|]; injection H as <- _; prj; auto.
      rewrite A. fold p. rewrite set_other by auto. auto. }
    assert (K2: forall x y z, m_active x = m_active s -> check_pending_platform c x = (y, z) -> m_active y = m_active x /\ m_valid y (m_active s) = m_valid x (m_active s) /\ m_info y = m_info x).
    { clear - NN. intros x y z A H. unfold check_pending_platform, get_region in H. destruct (_ && _); [destruct (compare_platform _ _ _)|]; injection H as <- _; prj; auto;
      rewrite A; fold p; rewrite set_other by auto; auto. }
    destruct (check_pending_id s1) as [s2 a2] eqn:E2. destruct (K s1 s2 a2 eq_refl E2) as (K3 & K4 & K5).
    assert (G2: m_active s2 = m_active s /\ m_valid s2 (m_active s) = m_valid s (m_active s) /\ m_info s2 (m_active s) = m_info s (m_active s)).
    { rewrite K3, K4, K5. unfold s1. prj. rewrite !set_other by auto. auto. }
    destruct G2 as (G2 & G3 & G4).
    destruct a2; try (injection H as <- _; now apply (G s2)).
    destruct (check_pending_platform c s2) as [s3 a3] eqn:E3. destruct (K2 s2 s3 a3 G2 E3) as (K6 & K7 & K8).
    destruct a3; injection H as <- _; apply (G s3); congruence.
  - now elim (NC f1 f2).
Qed.

Lemma step_pending : forall s o s' a, step s o = (s', a) -> m_valid s (negb (m_active s)) = true -> m_valid s' (negb (m_active s)) = false ->
  o = Activate V \/ (exists n, o = ClearStart V n /\ a = Nothing) \/ exists f1 f2, o = ClearAll V f1 f2.
Proof.
  clear C. intros s o s' a H VP VN. assert (NN: m_active s <> negb (m_active s)) by (now destruct (m_active s)).
  destruct o as [act|k|q| |n|f|d f|v post|f1 f2]; cbn [ManifestMgr_Model.step] in H; eauto.
  4: { right. left. exists n. split; [auto|]. unfold clear_start in H. destruct (Nat.eqb _ _); [destruct (upd_check_size _ _)|]; injection H as <- <-; auto; congruence. }
  all: exfalso.
  - injection H as <- _. unfold get_start in VN; prj. congruence.
  - unfold get_end in H. destruct (nth_error (m_getting s) k) as [[q b]|]; injection H as <- _; prj; congruence.
  - injection H as <- _. unfold free in VN; prj. congruence.
  - unfold clear_end in H. destruct (m_clearing s); [destruct (m_updating s)|]; [destruct (prepare_erase_all _ _ _ _ _ _) as [[u m] x]| |]; injection H as <- _; prj; congruence.
  - unfold write in H. destruct (m_updating s); [destruct (upd_write _ _ _ _) as [[u m] x]|]; injection H as <- _; prj; congruence.
  - unfold verify_pending in H. destruct (match m_updating s with Some q => _ | None => false end); [injection H as <- _; prj; congruence|].
    unfold get_region in H. rewrite VP in H. injection H as <- _. prj. congruence.
Qed.

(** The device. *)
Definition sinv (y : sys) (h : bool -> nat) (w : nat * bool) : Prop := match y with Up s _ => inv s h w | Down _ _ => True end.

Definition sop_legal (h : bool -> nat) (w : nat * bool) (o : sop V) : Prop :=
  match o with Call _ o => op_legal V c h w o | _ => True end.

Lemma sstep_inv : forall y h w o y' a, sinv y h w -> sop_legal h w o -> sstep y o = (y', a) ->
  sinv y' (held1 h (o, a)) (progress1 w (o, a)).
Proof.
  intros y h w o y' a I0 L H. destruct o as [o| |b]; cbn [ManifestMgr_Model.sstep] in H.
  - destruct y as [s r|m r]; [|injection H as <- <-; exact I]. destruct (step s o) as [s1 a1] eqn:E. injection H as <- <-.
    exact (proj1 (step_inv V verify c C s h w o s1 a1 I0 L E)).
  - destruct y as [s r|m r]; injection H as <- <-; exact I0.
  - destruct (init V verify c (sflash y) (sstored y) b) as [m [[s x]|]] eqn:E; injection H as <- <-; [|exact I].
    destruct (init_spec V verify c C _ _ _ _ _ E s x eq_refl) as (_ & I1 & _). exact I1.
Qed.

Fixpoint legal (h : bool -> nat) (w : nat * bool) (l : list (sop V * sanswer)) : Prop :=
  match l with
  | [] => True
  | p :: q => sop_legal h w (fst p) /\ legal (held1 h p) (progress1 w p) q
  end.

Lemma legal_intro : forall l h w, Forall (fun p => op_ok c (fst p)) l -> honest h l -> serial w l -> legal h w l.
Proof.
  clear C. induction l as [|[o a] l IH]; intros h w F H S; [exact I|]. cbn [legal honest serial fst] in *.
  inversion_clear F as [|? ? F1 F2]. destruct H as (H1 & H2). destruct S as (S1 & S2). split; [|auto].
  destruct o as [[]| |]; cbn in *; repeat split; auto; try tauto; now destruct S1.
Qed.

Definition held_from (h : bool -> nat) (l : list (sop V * sanswer)) := fold_left held1 l h.
Definition progress_from (w : nat * bool) (l : list (sop V * sanswer)) := fold_left progress1 l w.

Lemma srun_inv : forall l y h w y' al, sinv y h w -> srun y l = (y', al) -> legal h w (combine l al) ->
  sinv y' (held_from h (combine l al)) (progress_from w (combine l al)).
Proof.
  induction l as [|o l IH]; intros y h w y' al I0 R L; cbn [ManifestMgr_Model.srun] in R.
  - injection R as <- <-. exact I0.
  - destruct (sstep y o) as [y1 a] eqn:E. destruct (srun y1 l) as [y2 b] eqn:E2. injection R as <- <-.
    cbn [combine legal fst] in L. destruct L as (L1 & L2). cbn [combine held_from progress_from fold_left].
    apply (IH y1); auto. exact (sstep_inv _ _ _ _ _ _ I0 L1 E).
Qed.

Lemma srun_app : forall l1 l2 y, srun y (l1 ++ l2) =
  let '(y1, a1) := srun y l1 in let '(y2, a2) := srun y1 l2 in (y2, a1 ++ a2).
Proof.
  clear C. induction l1 as [|o l1 IH]; intros l2 y; cbn [ManifestMgr_Model.srun app].
  - now destruct (srun y l2).
  - destruct (sstep y o) as [y1 a]. rewrite IH. destruct (srun y1 l1) as [y2 b]. destruct (srun y2 l2). reflexivity.
Qed.

Lemma srun_length : forall l y, length (snd (srun y l)) = length l.
Proof.
  clear C. induction l as [|o l IH]; intros y; cbn [ManifestMgr_Model.srun]; [reflexivity|]. destruct (sstep y o) as [y1 a]. specialize (IH y1).
  destruct (srun y1 l). cbn [snd length] in *. now rewrite IH.
Qed.

Lemma legal_app : forall l1 l2 h w, legal h w (l1 ++ l2) <-> legal h w l1 /\ legal (held_from h l1) (progress_from w l1) l2.
Proof. clear C. induction l1 as [|p l1 IH]; intros l2 h w; cbn [legal app held_from progress_from fold_left]; [tauto|]. rewrite IH. tauto. Qed.

Lemma combine_app : forall A B (a1 a2 : list A) (b1 b2 : list B), length a1 = length b1 ->
  combine (a1 ++ a2) (b1 ++ b2) = combine a1 b1 ++ combine a2 b2.
Proof. clear. induction a1 as [|x a1 IH]; intros a2 [|y b1] b2 H; try discriminate; [reflexivity|]. cbn. f_equal. apply IH. now injection H. Qed.

Lemma combine_ok : forall (l : list (sop V)) (al : list sanswer), Forall (op_ok c) l -> Forall (fun p => op_ok c (fst p)) (combine l al).
Proof.
  clear C. intros l. induction l as [|o l IH]; intros [|a al] H; cbn; auto. inversion H; subst. constructor; auto.
Qed.
End Proofs.
