(** Proofs about the manifest manager: the invariant. *)
From Coq Require Import List NArith ZArith Lia Bool Arith ZifyBool ZifyNat ZifyN.
From Verif Require Import Base Flash_Base FlashUtil_Model FlashUtil_Proofs FlashUpdater_Model FlashUpdater_Proofs
  ManifestMgr_Model ManifestMgr_Spec.
Import ListNotations.
Local Open Scope N_scope.

Lemma set_same : forall A (f : bool -> A) r x, set f r x r = x.
Proof. intros. unfold set. now rewrite Bool.eqb_reflx. Qed.
Lemma set_other : forall A (f : bool -> A) r q x, q <> r -> set f r x q = f q.
Proof. intros. unfold set. destruct (Bool.eqb_spec q r); [contradiction|auto]. Qed.
Lemma negb_neq : forall b, negb b <> b.
Proof. intros []; discriminate. Qed.
Lemma neq_negb : forall a b : bool, a <> b -> a = negb b.
Proof. intros [] [] H; cbn; congruence. Qed.

Lemma in_firstn : forall A k (l : list A) x, In x (firstn k l) -> In x l.
Proof. intros A k l x H. rewrite <- (firstn_skipn k l). apply in_or_app. auto. Qed.
Lemma in_skipn : forall A k (l : list A) x, In x (skipn k l) -> In x l.
Proof. intros A k l x H. rewrite <- (firstn_skipn k l). apply in_or_app. auto. Qed.

(** Gets in progress on a valid region. *)
Definition pending (g : list (bool * bool)) (r : bool) : nat := length (filter (fun p => Bool.eqb (fst p) r && snd p) g).

Lemma pending_app : forall a b r, pending (a ++ b) r = (pending a r + pending b r)%nat.
Proof. intros. unfold pending. now rewrite filter_app, app_length. Qed.

Lemma pending_out : forall g k r q b, nth_error g k = Some (q, b) ->
  pending g r = (pending (firstn k g ++ skipn (S k) g) r + (if Bool.eqb q r && b then 1 else 0))%nat.
Proof.
  intros g k r q b H. rewrite <- (firstn_skipn k g) at 1.
  assert (S0: skipn k g = (q, b) :: skipn (S k) g).
  { revert k H. induction g as [|x g IH]; intros [|k] H; try discriminate; [now injection H as ->|exact (IH k H)]. }
  rewrite S0, !pending_app. unfold pending at 2. cbn [filter fst snd]. destruct (Bool.eqb q r && b); cbn [length]; unfold pending; lia.
Qed.

Lemma get_app : forall (g : list (bool * bool)) k r b, nth_error g k = Some (r, b) ->
  length (firstn k g ++ skipn (S k) g) = pred (length g).
Proof.
  intros g k r b H. assert (k < length g)%nat by (apply nth_error_Some; congruence).
  rewrite app_length, firstn_length, skipn_length. lia.
Qed.

Lemma upd_write_off : forall wres u m d, u_off u <= u_max u -> N.of_nat (length d) + u_max u < 2 ^ 32 ->
  u_off (fst (fst (upd_write wres u m d))) <= u_max u.
Proof.
  intros wres u m d H L. unfold upd_write. rewrite w32_small by lia. destruct (N.ltb_spec (u_max u) (u_off u + N.of_nat (length d))) as [X|X].
  - cbn. lia.
  - unfold dev_write. destruct (wres _) as [n|]; cbn [fst u_off]; [|lia]. rewrite w32_small; lia.
Qed.

Section Proofs.
Variable V : Type.
Variable verify : V -> list N -> verdict.
Variable c : mcfg.
Hypothesis C : mcfg_ok c.

(** What is known of a valid region. *)
Definition verified (s : mgr) (r : bool) (i : info) : Prop :=
  m_info s r = Some i /\ exists v, verify v (contents c (m_flash s) r) = Good i.

Definition newer (a p : info) : Prop := i_id a < i_id p /\ compatible (sku_upgrade c) (i_platform a) (i_platform p).

Record inv (s : mgr) (h : bool -> nat) (w : nat * bool) : Prop := Inv {
  i_ref : forall r, m_ref s r = (h r + pending (m_getting s) r)%nat;
  i_get : Forall (fun p => m_valid s (fst p) = snd p) (m_getting s);
  i_upding : forall q, m_updating s = Some q -> q = negb (m_active s) /\ m_valid s q = false /\ m_ref s q = 0%nat;
  i_count : length (m_getting s) = fst w;
  i_clear : match m_clearing s with Some n => snd w = true /\ m_updating s <> None /\ n <= r_size c | None => snd w = false end;
  i_upd : forall r, u_base (m_upd s r) = r_base c r /\ u_max (m_upd s r) = r_size c /\ u_off (m_upd s r) <= r_size c;
  i_info : forall r, m_valid s r = true -> exists i, verified s r i;
  i_newer : forall a p, m_valid s (m_active s) = true -> m_valid s (negb (m_active s)) = true ->
    m_info s (m_active s) = Some a -> m_info s (negb (m_active s)) = Some p -> newer a p
}.

(** The flash outside the blocks of region [q] is as before, so region [r] is. *)
Lemma contents_apart : forall m m' q r, r <> q ->
  (forall x, (forall y, r_base c q <= y < r_base c q + r_size c -> y / r_blk c <> x / r_blk c) -> m' x = m x) ->
  contents c m' r = contents c m r.
Proof.
  intros m m' q r N H. unfold contents. apply img_read_ext. intros i Hi. apply H. intros y Hy E.
  pose proof (mc_apart c C) as A. destruct r, q; try congruence.
  - apply (A y (r_base c true + N.of_nat i)); [lia|lia|exact E].
  - apply (A (r_base c false + N.of_nat i) y); [lia|lia|symmetry; exact E].
Qed.

Lemma list_eqb_true : forall a b, list_eqb a b = true -> a = b.
Proof. clear. intros a b H. unfold list_eqb in H. now destruct (list_eq_dec N.eq_dec a b). Qed.
Lemma list_eqb_refl : forall a, list_eqb a a = true.
Proof. clear. intros a. unfold list_eqb. now destruct (list_eq_dec N.eq_dec a a). Qed.

Lemma compare_platform_same : forall sku a b, compare_platform sku (Some a) (Some b) = Same <-> compatible sku (i_platform a) (i_platform b).
Proof.
  clear. intros sku a b. unfold compare_platform, compatible. destruct sku.
  - destruct (list_eqb (firstn (length (i_platform a)) (i_platform b)) (i_platform a)) eqn:E; split; intros H; try discriminate; auto.
    + apply list_eqb_true in E. exists (skipn (length (i_platform a)) (i_platform b)). rewrite <- E at 1. now rewrite firstn_skipn.
    + destruct H as (t & H). rewrite H, firstn_app, Nat.sub_diag, firstn_all, app_nil_r, list_eqb_refl in E. discriminate.
  - destruct (list_eqb (i_platform a) (i_platform b)) eqn:E; split; intros H; try discriminate; auto.
    + symmetry. now apply list_eqb_true.
    + rewrite H, list_eqb_refl in E. discriminate.
Qed.

(** A region becomes invalid. *)
Lemma drop_get : forall s h w r, inv s h w -> m_ref s r = 0%nat ->
  Forall (fun p => set (m_valid s) r false (fst p) = snd p) (m_getting s).
Proof.
  intros s h w r I0 R. rewrite Forall_forall. intros [a b] J. pose proof (proj1 (Forall_forall _ _) (i_get _ _ _ I0) _ J) as G. cbn [fst snd] in *.
  destruct (Bool.eqb_spec a r) as [->|N]; [|now rewrite set_other].
  rewrite set_same. destruct b; [|auto]. exfalso. pose proof (i_ref _ _ _ I0 r) as Q. rewrite R in Q.
  assert (P: In (r, true) (filter (fun p => Bool.eqb (fst p) r && snd p) (m_getting s))) by (apply filter_In; split; [auto|cbn; now rewrite Bool.eqb_reflx]).
  unfold pending in Q. destruct (filter _ (m_getting s)); [contradiction|cbn in Q; lia].
Qed.

Lemma set_false : forall (f : bool -> bool) r q, set f r false q = true -> q <> r /\ f q = true.
Proof. clear. intros f r q H. unfold set in H. destruct (Bool.eqb_spec q r); [discriminate|auto]. Qed.

(** A region changes only if nobody uses it and it is not offered afterwards. *)
Definition frame (s s' : mgr) : Prop :=
  forall r, contents c (m_flash s') r = contents c (m_flash s) r \/ (m_ref s r = 0%nat /\ m_valid s' r = false).

Lemma clear_manifest_spec : forall s h w r f s' a, inv s h w -> m_clearing s = None -> clear_manifest c s r f = (s', a) ->
  inv s' h w /\ frame s s' /\ m_active s' = m_active s /\ m_ref s' = m_ref s /\ m_clearing s' = None /\ m_updating s' = m_updating s /\
  m_info s' = m_info s /\ (forall q, m_valid s' q = true -> m_valid s q = true) /\ (a = Done -> m_valid s' r = false) /\
  (forall q, q <> r -> m_valid s' q = m_valid s q /\ contents c (m_flash s') q = contents c (m_flash s) q).
Proof.
  intros s h w r f s' a I0 CL H. unfold clear_manifest in H. destruct (Nat.eqb_spec (m_ref s r) 0) as [R|R].
  2: { injection H as <- <-. split; [auto|]. split; [left; auto|]. repeat split; auto. discriminate. }
  pose proof (erase_region_spec (f_erase f) (r_blk c) (m_flash s) (r_base c r) (N.to_nat (r_size c)) (mc_blk c C)) as E.
  destruct (erase_region (f_erase f) (r_blk c) (m_flash s) (r_base c r) (N.to_nat (r_size c))) as [m x]. destruct E as (E & _).
  rewrite N2Nat.id in E. injection H as <- _.
  assert (CA: forall q, q <> r -> contents c m q = contents c (m_flash s) q) by (intros q N; now apply (contents_apart (m_flash s) m r q)).
  split; [|split; [|split; [auto|split; [auto|split; [auto|split; [auto|split; [auto|split; [|split]]]]]]]].
  - pose proof (drop_get s h w r I0 R) as G. destruct I0. constructor; cbn [m_flash m_valid m_ref m_upd m_info m_updating m_active m_getting m_clearing]; auto.
    + intros q Q. destruct (i_upding0 q Q) as (A1 & A2 & A3). split; [auto|]. split; [|auto]. unfold set. destruct (Bool.eqb q r); auto.
    + intros q Q. apply set_false in Q. destruct Q as (Q1 & Q2). destruct (i_info0 q Q2) as (i & J1 & v & J2). exists i. split; [exact J1|].
      exists v. cbn [m_flash]. now rewrite CA.
    + intros a0 p A P. apply set_false in A, P. apply i_newer0; tauto.
  - intros q. cbn [m_flash m_valid]. destruct (Bool.eqb_spec q r) as [->|N]; [right; rewrite set_same; auto|left; auto].
  - intros q Q. cbn [m_valid] in Q. apply set_false in Q. tauto.
  - intros _. cbn [m_valid]. apply set_same.
  - intros q N. cbn [m_valid m_flash]. split; [now apply set_other|auto].
Qed.

Lemma inv_updating_none : forall s h w, inv s h w -> m_clearing s = None -> inv (with_updating s None) h w.
Proof.
  intros s h w I0 CL. destruct I0. constructor; cbn [with_updating m_flash m_valid m_ref m_upd m_info m_updating m_active m_getting m_clearing]; auto; try discriminate.
  now rewrite CL in *.
Qed.

Lemma clear_all_spec : forall s h w f1 f2 s' a, inv s h w -> m_clearing s = None -> clear_all c s f1 f2 = (s', a) ->
  inv s' h w /\ frame s s' /\ m_active s' = m_active s /\ m_ref s' = m_ref s /\ m_clearing s' = None /\
  (forall q, m_valid s' q = true -> m_valid s q = true) /\ (a = Done -> forall q, m_valid s' q = false).
Proof.
  intros s h w f1 f2 s' a I0 CL H. unfold clear_all in H. destruct (clear_manifest c s (get_region s false) f1) as [s1 a1] eqn:E1.
  destruct (clear_manifest_spec _ _ _ _ _ _ _ I0 CL E1) as (I1 & F1 & A1 & R1 & C1 & _ & _ & V1 & D1 & _).
  assert (Z: a1 <> Done -> (s1, a1) = (s', a) ->
    inv s' h w /\ frame s s' /\ m_active s' = m_active s /\ m_ref s' = m_ref s /\ m_clearing s' = None /\
    (forall q, m_valid s' q = true -> m_valid s q = true) /\ (a = Done -> forall q, m_valid s' q = false)).
  { intros N Q. injection Q as <- <-. split; [auto|]. split; [auto|]. split; [auto|]. split; [auto|]. split; [auto|]. split; [auto|]. intros; contradiction. }
  destruct a1; try (apply Z; [discriminate|exact H]).
  specialize (D1 eq_refl).
  destruct (clear_manifest_spec _ _ _ _ _ _ _ (inv_updating_none _ _ _ I1 C1) C1 H) as (I2 & F2 & A2 & R2 & C2 & _ & _ & V2 & D2 & O2).
  cbn [with_updating m_active m_ref m_valid m_flash] in *.
  split; [exact I2|]. split; [|split; [congruence|split; [congruence|split; [auto|split; [auto|]]]]].
  - intros q. destruct (F2 q) as [X|(X & Y)]; [|right; cbn [with_updating m_ref] in X; rewrite R1 in X; auto].
    cbn [with_updating m_flash] in X. destruct (F1 q) as [X1|(X1 & Y1)]; [left; congruence|]. right. split; [auto|].
    destruct (m_valid s' q) eqn:Z1; [|auto]. apply V2 in Z1. congruence.
  - intros ->. intros q. unfold get_region in D1, D2, O2. rewrite A1 in D2, O2. destruct (Bool.eqb_spec q (m_active s)) as [->|N]; [now apply D2|].
    destruct (m_valid s' q) eqn:Z1; [|auto]. apply V2 in Z1. apply neq_negb in N. subst q. congruence.
Qed.

(** The comparison of the manifests of both regions. *)
Lemma compare_pending : forall s, (forall r, m_valid s r = true -> exists i, verified s r i) ->
  let s1 := fst (check_pending_id s) in
  let s2 := fst (check_pending_platform c s1) in
  exists b, s1 = with_valid s (m_valid s1) /\ s2 = with_valid s (m_valid s2) /\
    (forall q, q <> negb (m_active s) -> m_valid s2 q = m_valid s q) /\
    m_valid s2 (negb (m_active s)) = b && m_valid s (negb (m_active s)) /\
    snd (check_pending_platform c s1) <> BadManifest /\
    (b = true <-> snd (check_pending_id s) = Done /\ snd (check_pending_platform c s1) = Done) /\
    (b = true <-> forall a p, m_valid s (m_active s) = true -> m_valid s (negb (m_active s)) = true ->
       m_info s (m_active s) = Some a -> m_info s (negb (m_active s)) = Some p -> newer a p) /\
    (snd (check_pending_id s) = Done \/ snd (check_pending_id s) = InvalidId) /\
    (snd (check_pending_id s) = InvalidId -> snd (check_pending_platform c s1) = Done) /\
    (snd (check_pending_platform c s1) = Done \/ snd (check_pending_platform c s1) = Incompatible) /\
    (snd (check_pending_id s) = Done -> s1 = s).
Proof.
  intros s HI. unfold check_pending_id, get_region.
  assert (SW: forall x, x = with_valid x (m_valid x)) by (intros []; reflexivity).
  set (a := m_active s). set (p := negb a).
  destruct (m_valid s a) eqn:VA; [destruct (m_valid s p) eqn:VP|]; cbn [andb].
  - destruct (HI a VA) as (ia & A1 & _). destruct (HI p VP) as (ip & P1 & _). rewrite A1, P1. unfold compare_id.
    destruct (N.ltb_spec (i_id ia) (i_id ip)) as [L|L]; cbn [fst snd].
    + unfold check_pending_platform, get_region. fold a. fold p. rewrite VA, VP, A1, P1. cbn [andb].
      destruct (compare_platform (sku_upgrade c) (Some ia) (Some ip)) eqn:CP; cbn [fst snd].
      * exists true. apply compare_platform_same in CP. split; [auto|]. split; [auto|]. split; [auto|]. split; [auto|].
        split; [discriminate|]. split; [split; auto|].
        split; [split; [intros _ x y _ _ X Y; injection X as <-; injection Y as <-; split; auto|auto]|]. repeat split; auto; discriminate.
      * exists false. assert (NC: ~ compatible (sku_upgrade c) (i_platform ia) (i_platform ip)) by (intros Q; apply compare_platform_same in Q; congruence).
        split; [auto|]. split; [auto|]. cbn [with_valid m_valid]. split; [intros q Q; now apply set_other|]. split; [apply set_same|].
        split; [discriminate|]. split; [split; [discriminate|intros (_ & Q); discriminate]|].
        split; [split; [discriminate|intros Q; elim NC; apply (Q ia ip); auto]|]. repeat split; auto; discriminate.
      * unfold compare_platform in CP. destruct (if sku_upgrade c then _ else _); discriminate.
    + exists false. unfold check_pending_platform, get_region. cbn [with_valid m_valid m_active m_info]. fold a. fold p.
      rewrite set_same, andb_false_r. cbn [fst snd]. split; [auto|]. split; [auto|]. cbn [with_valid m_valid].
      split; [intros q Q; now apply set_other|]. split; [apply set_same|]. split; [discriminate|].
      split; [split; [discriminate|intros (Q & _); discriminate]|].
      split; [split; [discriminate|intros Q; destruct (Q ia ip); auto; lia]|]. repeat split; auto; discriminate.
  - exists true. unfold check_pending_platform, get_region. cbn [fst snd]. fold a. fold p. rewrite VA, VP. cbn [andb fst snd].
    split; [auto|]. split; [auto|]. split; [auto|]. split; [auto|]. split; [discriminate|]. split; [tauto|]. split; [split; [intros; congruence|auto]|]. repeat split; auto; discriminate.
  - exists true. unfold check_pending_platform, get_region. cbn [fst snd]. fold a. fold p. rewrite VA. cbn [andb fst snd].
    split; [auto|]. split; [auto|]. split; [auto|]. split; [auto|]. split; [discriminate|]. split; [tauto|]. split; [split; [intros; congruence|auto]|]. repeat split; auto; discriminate.
Qed.
End Proofs.
