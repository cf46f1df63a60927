(** Comparing region lists and image lists. *)
From Coq Require Import List NArith Lia Bool Arith Permutation ZifyBool ZifyNat ZifyN.
From Verif Require Import Base Flash_Base FlashUtil_Model BufferUtil_Model BufferUtil_Proofs
  HostFw_Model HostFw_Spec HostFw_Walk_Proofs.
Import ListNotations.
Local Open Scope N_scope.

Lemma region_eq : forall a b, start a = start b -> len a = len b -> a = b.
Proof. intros [a1 a2] [b1 b2]. cbn [start len]. intros. now subst. Qed.

Lemma region_dec : forall a b : region, {a = b} + {a <> b}.
Proof. decide equality; apply N.eq_dec. Qed.

(** Two searches in the same good list agree. *)
Lemma finds_unique : forall last rs o o', good rs -> finds last rs o -> finds last rs o' -> o = o'.
Proof.
  intros last rs o o' G F F'. pose proof (good_disjoint rs G) as (_ & D). destruct G as (P & _).
  rewrite Forall_forall in P.
  destruct o as [r|], o' as [s|]; cbn [finds] in *; auto.
  - destruct F as (A1 & A2 & A3), F' as (B1 & B2 & B3). specialize (A3 s B1 B2). specialize (B3 r A1 A2).
    destruct (region_dec r s) as [->|Ne]; auto. exfalso.
    destruct (P r A1), (P s B1).
    apply (D r s A1 B1 Ne (start r)). unfold inside. lia.
  - destruct F as (A1 & A2 & _). specialize (F' r A1). lia.
  - destruct F' as (A1 & A2 & _). specialize (F s A1). lia.
Qed.

Lemma finds_perm : forall last a b o, Permutation a b -> finds last a o -> finds last b o.
Proof.
  intros last a b [r|] P F; cbn [finds] in *.
  - destruct F as (A1 & A2 & A3). split; [eapply Permutation_in; eauto|split; auto].
    intros r' Hr. apply A3. eapply Permutation_in; [apply Permutation_sym; eauto|auto].
  - intros r Hr. apply F. eapply Permutation_in; [apply Permutation_sym; eauto|auto].
Qed.

Lemma regions_loop_false : forall f last r1 r2, regions_differ_loop f last r1 r2 = Some false ->
  exists l, visit f (fun a => find_next a r1) last = Some l /\ incl l r2.
Proof.
  induction f as [|f IH]; intros last r1 r2 H; cbn [regions_differ_loop visit] in *.
  - destruct (find_next last r1); [discriminate|]. exists []. split; auto. intros ? [].
  - destruct (find_next last r1) as [p|]; [|exists []; split; auto; intros ? []].
    pose proof (find_next_finds r2 last) as F2.
    destruct (find_next last r2) as [q|]; [|discriminate].
    destruct (N.eqb_spec (start p) (start q)); [|discriminate].
    destruct (N.eqb_spec (len p) (len q)); [|discriminate]. cbn [negb] in H.
    destruct (IH _ _ _ H) as (l & -> & I). exists (p :: l). split; auto.
    assert (p = q) by (apply region_eq; auto). subst q.
    intros x [<-|Hx]; [apply F2|auto].
Qed.

Lemma regions_loop_none : forall f last r1 r2, regions_differ_loop f last r1 r2 = None ->
  visit f (fun a => find_next a r1) last = None.
Proof.
  induction f as [|f IH]; intros last r1 r2 H; cbn [regions_differ_loop visit] in *;
    destruct (find_next last r1) as [p|]; try discriminate; auto.
  destruct (find_next last r2) as [q|]; [|discriminate].
  destruct (negb (start p =? start q)); [discriminate|].
  destruct (negb (len p =? len q)); [discriminate|]. now rewrite (IH _ _ _ H).
Qed.

Lemma regions_loop_same : forall r1 r2, good r1 -> Permutation r1 r2 -> forall f last l,
  visit f (fun a => find_next a r1) last = Some l -> regions_differ_loop f last r1 r2 = Some false.
Proof.
  intros r1 r2 G P. induction f as [|f IH]; intros last l H; cbn [regions_differ_loop visit] in *.
  - destruct (find_next last r1); [discriminate|auto].
  - assert (E: find_next last r1 = find_next last r2).
    { apply (finds_unique last r1); auto; [apply find_next_finds|].
      apply finds_perm with (a := r2); [now apply Permutation_sym|apply find_next_finds]. }
    rewrite <- E. destruct (find_next last r1) as [p|]; auto.
    destruct (visit f (fun a => find_next a r1) (past p)) eqn:V; [|discriminate].
    rewrite !N.eqb_refl. cbn [negb]. eauto.
Qed.

Lemma regions_differ_spec : forall r1 r2, good r1 ->
  regions_differ r1 r2 <> None /\ (regions_differ r1 r2 = Some false <-> Permutation r1 r2).
Proof.
  intros r1 r2 G. pose proof (visit_good (fun a => find_next a r1) r1 (find_next_finds r1) G) as (l & V & P).
  unfold regions_differ. destruct (Nat.eqb_spec (length r1) (length r2)) as [L|L].
  - split; [|split].
    + intros H. apply regions_loop_none in H. congruence.
    + intros H. apply regions_loop_false in H. destruct H as (l' & V' & I).
      assert (l = l') by congruence. subst l'.
      apply NoDup_Permutation_bis.
      * apply good_disjoint. auto.
      * lia.
      * intros x Hx. apply I. eapply Permutation_in; [apply Permutation_sym; eauto|auto].
    + intros Q. eapply regions_loop_same; eauto.
  - split; [discriminate|split; [discriminate|]]. intros Q. apply Permutation_length in Q. contradiction.
Qed.

Lemma array_compare : forall a b size na nb, array a size na -> array b size nb -> forall n, (n <= size)%nat ->
  (buffer_compare 0xff (Some a) (Some b) n = true <-> firstn n a = firstn n b).
Proof.
  intros a b size na nb (A1 & A2 & A3) (B1 & B2 & B3) n Hn. change 0xff with (N.ones 8).
  apply buffer_compare_correct; auto; lia.
Qed.

Ltac splits := repeat match goal with |- _ /\ _ => split end.

Lemma same_key_spec : forall k1 k2, array (modulus k1) 512 (mod_length k1) -> array (modulus k2) 512 (mod_length k2) ->
  (same_key k1 k2 = true <-> same_rsa_key k1 k2).
Proof.
  intros k1 k2 A B. unfold same_key, same_rsa_key.
  pose proof (array_compare _ _ _ _ _ A B (mod_length k1) ltac:(apply A)) as C.
  rewrite !andb_true_iff, C, N.eqb_eq, Nat.eqb_eq. split.
  - intros ((E1 & E2) & E3). splits; auto. rewrite <- E2. exact E3.
  - intros (E1 & E2 & E3). splits; auto. rewrite E3. now rewrite E2.
Qed.

(** Equality of a prefix. *)
Lemma firstn_le : forall (A : Type) (a b : list A) n k, (k <= n)%nat -> firstn n a = firstn n b -> firstn k a = firstn k b.
Proof.
  intros A a b n k H E.
  transitivity (firstn k (firstn n a)); [now rewrite firstn_firstn, Nat.min_l by lia|].
  rewrite E. now rewrite firstn_firstn, Nat.min_l by lia.
Qed.

Lemma sig_differ_sound : forall first l1 l2, length l1 = length l2 -> (first <= 512)%nat ->
  Forall sig_fits l1 -> Forall sig_fits l2 -> Forall (fun i => good (si_regions i)) l1 ->
  Forall (fun i => (si_len i <= first)%nat) l1 ->
  sig_images_differ first l1 l2 = Some false -> Forall2 same_sig_image l1 l2.
Proof.
  intros first. induction l1 as [|i l1 IH]; intros [|j l2] L FB F1 F2 G M H; try discriminate; [constructor|].
  inversion F1; inversion F2; inversion G; inversion M; subst. cbn [length] in L. cbn [sig_images_differ] in H.
  destruct (same_key (si_key i) (si_key j)) eqn:K; [|discriminate]. cbn [negb] in H.
  destruct (Nat.eqb_spec (si_len i) (si_len j)) as [E1|]; [|discriminate].
  destruct (N.eqb_spec (si_always i) (si_always j)) as [E2|]; [|discriminate]. cbn [negb orb] in H.
  destruct (buffer_compare 0xff (Some (si_sig i)) (Some (si_sig j)) first) eqn:C; [|discriminate]. cbn [negb] in H.
  destruct (regions_differ (si_regions i) (si_regions j)) as [[|]|] eqn:R; try discriminate.
  constructor; [|apply IH; auto; lia].
  destruct H2 as (A1 & A2), H6 as (B1 & B2).
  apply same_key_spec in K; auto.
  apply (array_compare _ _ _ _ _ A2 B2 first FB) in C.
  pose proof (firstn_le _ _ _ _ _ H14 C) as C'.
  unfold same_sig_image. splits; auto; [now rewrite <- E1|].
  apply regions_differ_spec; auto.
Qed.

Lemma sig_differ_complete : forall first l1 l2, (first <= 512)%nat ->
  Forall sig_fits l1 -> Forall sig_fits l2 -> Forall (fun i => good (si_regions i)) l1 ->
  Forall (fun i => (first <= si_len i)%nat) l1 ->
  Forall2 same_sig_image l1 l2 -> sig_images_differ first l1 l2 = Some false.
Proof.
  intros first l1 l2 FB F1 F2 G M H. induction H as [|i j l1 l2 S T IH]; [reflexivity|].
  inversion F1; inversion F2; inversion G; inversion M; subst. cbn [sig_images_differ].
  destruct S as (S1 & S2 & S3 & S4 & S5).
  destruct H1 as (A1 & A2), H5 as (B1 & B2).
  rewrite (proj2 (same_key_spec _ _ A1 B1) S1). rewrite S2, S3, Nat.eqb_refl, N.eqb_refl. cbn [negb orb].
  rewrite S2 in S4. rewrite S2 in H13.
  rewrite (proj2 (array_compare _ _ _ _ _ A2 B2 first FB) (firstn_le _ _ _ _ _ H13 S4)). cbn [negb].
  rewrite (proj2 (proj2 (regions_differ_spec _ (si_regions j) H9)) S5). auto.
Qed.

Lemma sig_differ_ends : forall first l1 l2, Forall (fun i => good (si_regions i)) l1 -> sig_images_differ first l1 l2 <> None.
Proof.
  intros first. induction l1 as [|i l1 IH]; intros [|j l2] G; try discriminate. inversion G; subst. cbn [sig_images_differ].
  repeat (match goal with |- (if ?b then _ else _) <> None => destruct b end; [discriminate|]).
  pose proof (proj1 (regions_differ_spec (si_regions i) (si_regions j) H1)).
  destruct (regions_differ (si_regions i) (si_regions j)) as [[|]|]; try discriminate; auto.
Qed.

Lemma hash_differ_sound : forall first l1 l2, length l1 = length l2 -> (first <= 64)%nat ->
  Forall hash_fits l1 -> Forall hash_fits l2 -> Forall (fun i => good (hi_regions i)) l1 ->
  Forall (fun i => (hi_len i <= first)%nat) l1 ->
  hash_images_differ first l1 l2 = Some false -> Forall2 same_hash_image l1 l2.
Proof.
  intros first. induction l1 as [|i l1 IH]; intros [|j l2] L FB F1 F2 G M H; try discriminate; [constructor|].
  inversion F1; inversion F2; inversion G; inversion M; subst. cbn [length] in L. cbn [hash_images_differ] in H.
  destruct (Nat.eqb_spec (hi_len i) (hi_len j)) as [E1|]; [|discriminate].
  destruct (N.eqb_spec (hi_type i) (hi_type j)) as [E0|]; [|discriminate].
  destruct (N.eqb_spec (hi_always i) (hi_always j)) as [E2|]; [|discriminate]. cbn [negb orb] in H.
  destruct (buffer_compare 0xff (Some (hi_hash i)) (Some (hi_hash j)) first) eqn:C; [|discriminate]. cbn [negb] in H.
  destruct (regions_differ (hi_regions i) (hi_regions j)) as [[|]|] eqn:R; try discriminate.
  constructor; [|apply IH; auto; lia].
  apply (array_compare _ _ _ _ _ H2 H6 first FB) in C.
  pose proof (firstn_le _ _ _ _ _ H14 C) as C'.
  unfold same_hash_image. splits; auto; [now rewrite <- E1|].
  apply regions_differ_spec; auto.
Qed.

Lemma hash_differ_complete : forall first l1 l2, (first <= 64)%nat ->
  Forall hash_fits l1 -> Forall hash_fits l2 -> Forall (fun i => good (hi_regions i)) l1 ->
  Forall (fun i => (first <= hi_len i)%nat) l1 ->
  Forall2 same_hash_image l1 l2 -> hash_images_differ first l1 l2 = Some false.
Proof.
  intros first l1 l2 FB F1 F2 G M H. induction H as [|i j l1 l2 S T IH]; [reflexivity|].
  inversion F1; inversion F2; inversion G; inversion M; subst. cbn [hash_images_differ].
  destruct S as (S1 & S2 & S3 & S4 & S5).
  rewrite S1, S2, S3, Nat.eqb_refl, !N.eqb_refl. cbn [negb orb].
  rewrite S2 in S4. rewrite S2 in H13.
  rewrite (proj2 (array_compare _ _ _ _ _ H1 H5 first FB) (firstn_le _ _ _ _ _ H13 S4)). cbn [negb].
  rewrite (proj2 (proj2 (regions_differ_spec _ (hi_regions j) H9)) S5). auto.
Qed.

Lemma hash_differ_ends : forall first l1 l2, Forall (fun i => good (hi_regions i)) l1 -> hash_images_differ first l1 l2 <> None.
Proof.
  intros first. induction l1 as [|i l1 IH]; intros [|j l2] G; try discriminate. inversion G; subst. cbn [hash_images_differ].
  repeat (match goal with |- (if ?b then _ else _) <> None => destruct b end; [discriminate|]).
  pose proof (proj1 (regions_differ_spec (hi_regions i) (hi_regions j) H1)).
  destruct (regions_differ (hi_regions i) (hi_regions j)) as [[|]|]; try discriminate; auto.
Qed.

Lemma Forall2_len : forall (A B : Type) (R : A -> B -> Prop) l1 l2, Forall2 R l1 l2 -> length l1 = length l2.
Proof. intros A B R l1 l2 H. induction H; cbn [length]; congruence. Qed.

Lemma images_differ_ends : forall a b, regions_good a -> images_differ a b <> None.
Proof.
  intros [[l|l]|] [[k|k]|] G; cbn [images_differ regions_good image_regions] in *; try discriminate;
    (destruct (_ =? _)%nat; [|discriminate]).
  - apply sig_differ_ends. rewrite Forall_map in G. auto.
  - apply hash_differ_ends. rewrite Forall_map in G. auto.
Qed.

Lemma images_differ_sound : forall a b, images_fit a -> images_fit b -> regions_good a ->
  Forall (fun n => (n <= hd 0 (auth_lengths a))%nat) (auth_lengths a) ->
  images_differ a b = Some false -> same_images a b.
Proof.
  intros [[l|l]|] [[k|k]|] F1 F2 G M H; cbn [images_differ regions_good image_regions images_fit same_images auth_lengths] in *;
    try discriminate; auto; rewrite Forall_map in G, M.
  - destruct (Nat.eqb_spec (length l) (length k)) as [L|]; [|discriminate].
    apply (sig_differ_sound (first_of si_len l)); auto; [|destruct l; auto].
    destruct l as [|i l]; cbn [first_of]; [lia|]. inversion F1; subst. apply H2.
  - destruct (Nat.eqb_spec (length l) (length k)) as [L|]; [|discriminate].
    apply (hash_differ_sound (first_of hi_len l)); auto; [|destruct l; auto].
    destruct l as [|i l]; cbn [first_of]; [lia|]. inversion F1; subst. apply H2.
Qed.

Lemma images_differ_complete : forall a b, images_fit a -> images_fit b -> regions_good a ->
  Forall (fun n => (hd 0 (auth_lengths a) <= n)%nat) (auth_lengths a) ->
  same_images a b -> images_differ a b = Some false.
Proof.
  intros [[l|l]|] [[k|k]|] F1 F2 G M H; cbn [images_differ regions_good image_regions images_fit same_images auth_lengths] in *;
    try contradiction; auto; rewrite Forall_map in G, M; pose proof (Forall2_len _ _ _ _ _ H) as L; rewrite L, Nat.eqb_refl.
  - apply sig_differ_complete; auto; [|destruct l; auto].
    destruct l as [|i l]; cbn [first_of]; [lia|]. inversion F1; subst. apply H2.
  - apply hash_differ_complete; auto; [|destruct l; auto].
    destruct l as [|i l]; cbn [first_of]; [lia|]. inversion F1; subst. apply H2.
Qed.
