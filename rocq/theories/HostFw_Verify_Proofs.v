(** Full flash validation. *)
From Coq Require Import List NArith Lia Bool Arith Permutation ZifyBool ZifyNat ZifyN.
From Verif Require Import Base Flash_Base FlashUtil_Model FlashUtil_Proofs BufferUtil_Model BufferUtil_Proofs
  HostFw_Model HostFw_Spec HostFw_Walk_Proofs.
Import ListNotations.
Local Open Scope N_scope.

Lemma value_check_ok : forall rfail m a n v, value_check rfail m a n v = FuOk ->
  forall x, a <= x < a + N.of_nat n -> m x = v.
Proof.
  intros rfail m a n v H x Hx. unfold value_check, check_region in H.
  destruct (check_loop_spec rfail n m a (fun _ => v) 0 n (le_n _)) as (C & _).
  specialize (C H (N.to_nat (x - a)) ltac:(lia)). replace (a + N.of_nat (N.to_nat (x - a))) with x in C by lia. exact C.
Qed.

Lemma value_check_total : forall rfail m a n v, (forall x, rfail x = false) ->
  (forall x, a <= x < a + N.of_nat n -> m x = v) -> value_check rfail m a n v = FuOk.
Proof. intros. apply no_read_fault_check; auto. intros k Hk. apply H0. lia. Qed.

Lemma sub32_le : forall a b, b <= a -> a < 2 ^ 32 -> sub32 a b = a - b.
Proof.
  intros a b H L. unfold sub32, W32. change (2 ^ 32) with 4294967296 in *.
  replace (a + 4294967296 - b) with ((a - b) + 1 * 4294967296) by lia.
  rewrite N.mod_add by lia. apply N.mod_small. lia.
Qed.

Lemma contents_at_nat : forall m rs,
  concat (map (fun r : N * nat => img_read m (fst r + 0) (snd r)) (at_nat rs)) = contents m rs.
Proof.
  intros. unfold contents, at_nat. rewrite map_map. f_equal. apply map_ext. intros r. cbn [fst snd].
  now rewrite N.add_0_r.
Qed.

Section Verify.
Variable rfail : N -> bool.
Variable hash : N -> list N -> option (list N).
Variable rsa_verify : rsa_key -> list N -> list N -> bool.
Variable stale : list N.

Lemma verify_each_all : forall (A : Type) (always : A -> N) check l,
  verify_each always check true l = HfOk <-> (forall i, In i l -> check i = HfOk).
Proof.
  intros A always check l. induction l as [|i t IH]; cbn [verify_each orb].
  - split; [intros _ i []|auto].
  - split.
    + intros H j [<-|Hj].
      * destruct (check i); congruence.
      * apply IH; auto. destruct (check i); congruence.
    + intros H. rewrite (H i) by now left. apply IH. intros j Hj. apply H. now right.
Qed.

Lemma verify_sig_ok : forall m i, verify_sig rfail hash rsa_verify m 0 i = HfOk -> signed hash rsa_verify m i.
Proof.
  intros m i H. unfold verify_sig in H. destruct (_ || _); [discriminate|].
  destruct (hash_regions rfail m 0 (at_nat (si_regions i))) as [d|] eqn:E; [|discriminate].
  apply hash_regions_spec in E. rewrite contents_at_nat in E. subst d.
  destruct (hash SHA256 (contents m (si_regions i))) as [h|] eqn:E2; [|discriminate].
  destruct (rsa_verify _ _ _) eqn:E3; [|discriminate]. exists h. auto.
Qed.

Lemma stale_front : forall (h : list N) n, n = length h -> firstn n (splice stale 0 h) = h.
Proof.
  intros h n ->. unfold splice. cbn [firstn app]. rewrite firstn_app, firstn_all.
  replace (length h - length h)%nat with 0%nat by lia. cbn [firstn]. apply app_nil_r.
Qed.

Lemma compare_digest : forall dlen i h, digests hash dlen -> bytes_ok stale ->
  hi_len i = dlen (hi_type i) /\ (hi_len i <= length (hi_hash i))%nat /\ bytes_ok (hi_hash i) ->
  length h = dlen (hi_type i) -> bytes_ok h ->
  (buffer_compare 0xff (Some (hi_hash i)) (Some (splice stale 0 h)) (hi_len i) = true <->
   firstn (hi_len i) (hi_hash i) = h).
Proof.
  intros dlen i h D BS (P1 & P2 & P3) L B.
  change 0xff with (N.ones 8). rewrite buffer_compare_correct.
  - rewrite stale_front by lia. tauto.
  - exact P3.
  - unfold splice. cbn [firstn app]. apply Forall_app. split; [exact B|].
    unfold bytes_ok in BS. clear - BS. revert BS. generalize (0 + length h)%nat. intros n.
    rewrite <- (firstn_skipn n stale) at 1. rewrite Forall_app. tauto.
  - auto.
  - unfold splice. cbn [firstn app]. rewrite app_length. lia.
Qed.

Lemma verify_hash_ok : forall dlen m i, digests hash dlen -> bytes_ok stale ->
  hi_len i = dlen (hi_type i) /\ (hi_len i <= length (hi_hash i))%nat /\ bytes_ok (hi_hash i) ->
  verify_hash rfail hash stale m 0 i = HfOk -> hashed hash m i.
Proof.
  intros dlen m i D BS P H. unfold verify_hash in H. destruct (_ =? _)%nat; [discriminate|].
  destruct (hash_regions rfail m 0 (at_nat (hi_regions i))) as [d|] eqn:E; [|discriminate].
  apply hash_regions_spec in E. rewrite contents_at_nat in E. subst d.
  destruct (hash (hi_type i) (contents m (hi_regions i))) as [h|] eqn:E2; [|discriminate].
  destruct (buffer_compare _ _ _ _) eqn:E3; [|discriminate].
  destruct (D _ _ _ E2) as (L & B).
  apply (compare_digest dlen) in E3; auto. unfold hashed. now rewrite E2, E3.
Qed.

Lemma verify_all_ok : forall dlen m ils, digests hash dlen -> bytes_ok stale ->
  (forall il, In il ils -> parsed dlen il) ->
  verify_all_fw rfail hash rsa_verify stale m true 0 ils = HfOk ->
  forall il, In il ils -> authentic hash rsa_verify m il.
Proof.
  intros dlen m ils D BS P H. induction ils as [|il t IH]; [intros ? []|]. cbn [verify_all_fw] in H.
  destruct (verify_images rfail hash rsa_verify stale m true 0 il) eqn:E; try discriminate.
  intros j [<-|Hj]; [|apply IH; auto; intros; apply P; now right].
  specialize (P il (or_introl eq_refl)).
  destruct il as [l|l]; cbn [verify_images authentic parsed] in *; intros i Hi; apply (proj1 (verify_each_all _ _ _ _)) with (i := i) in E; auto.
  - now apply verify_sig_ok.
  - eapply verify_hash_ok; eauto.
Qed.

Lemma verify_all_total : forall dlen m ils, digests hash dlen -> bytes_ok stale -> (forall x, rfail x = false) ->
  (forall il, In il ils -> parsed dlen il /\ not_empty il /\ authentic hash rsa_verify m il) ->
  verify_all_fw rfail hash rsa_verify stale m true 0 ils = HfOk.
Proof.
  intros dlen m ils D BS NF H. induction ils as [|il t IH]; [reflexivity|]. cbn [verify_all_fw].
  rewrite (IH (fun j Hj => H j (or_intror Hj))).
  destruct (H il (or_introl eq_refl)) as (P & NE & A).
  replace (verify_images rfail hash rsa_verify stale m true 0 il) with HfOk; [reflexivity|]. symmetry.
  destruct il as [l|l]; cbn [verify_images authentic parsed not_empty] in *; apply verify_each_all; intros i Hi.
  - destruct (NE i Hi) as (N1 & N2). destruct (A i Hi) as (h & A1 & A2). unfold verify_sig.
    replace ((length (si_regions i) =? 0)%nat || (si_len i =? 0)%nat) with false
      by (destruct (si_regions i); [congruence|cbn [length]; lia]).
    destruct (hash_regions_total rfail (at_nat (si_regions i)) m 0 NF) as (d & E). rewrite E.
    apply hash_regions_spec in E. rewrite contents_at_nat in E. subst d. now rewrite A1, A2.
  - pose proof (NE i Hi) as N1. pose proof (A i Hi) as A1. unfold hashed in A1. unfold verify_hash.
    replace (length (hi_regions i) =? 0)%nat with false by (destruct (hi_regions i); [congruence|reflexivity]).
    destruct (hash_regions_total rfail (at_nat (hi_regions i)) m 0 NF) as (d & E). rewrite E.
    apply hash_regions_spec in E. rewrite contents_at_nat in E. subst d. rewrite A1.
    destruct (D _ _ _ A1) as (L & B).
    rewrite (proj2 (compare_digest dlen i _ D BS (P i Hi) L B)); auto.
Qed.

(** The walk. *)
Section Walk.
Variable m : image.
Variable rs : list region.
Variable find : N -> option region.
Variable fsize unused : N.
Hypothesis F : forall last, finds last rs (find last).
Hypothesis FS : fsize < 2 ^ 32.

Definition accounted (x : N) : Prop := covered rs x \/ m x = unused.

Lemma unused_walk_sound : in_space rs -> forall f last,
  (forall x, x < last -> accounted x) ->
  unused_walk rfail f m find last fsize unused = Some HfOk -> forall x, x < fsize -> accounted x.
Proof.
  intros SP. unfold in_space in SP. rewrite Forall_forall in SP.
  assert (LAST: forall last, (forall x, x < last -> accounted x) ->
     flash_status (value_check rfail m last (N.to_nat (sub32 fsize last)) unused) = HfOk ->
     forall x, x < fsize -> accounted x).
  { intros last A H x Hx. destruct (N.lt_ge_cases x last) as [L|L]; [auto|]. right.
    rewrite sub32_le in H by lia.
    destruct (value_check rfail m last (N.to_nat (fsize - last)) unused) eqn:V; try discriminate.
    eapply value_check_ok; [exact V|]. lia. }
  induction f as [|f IH]; intros last A H; cbn [unused_walk] in H; pose proof (F last) as FL.
  - destruct (find last) as [p|]; [discriminate|]. apply (LAST last); auto. congruence.
  - destruct (find last) as [p|]; [|apply (LAST last); auto; congruence].
    destruct FL as (I1 & I2 & I3). specialize (SP p I1). rewrite sub32_le in H by lia.
    destruct (value_check rfail m last (N.to_nat (start p - last)) unused) eqn:V; try discriminate.
    apply IH with (last := past p); [|exact H].
    assert (U: past p <= start p + len p) by (unfold past, u32; apply N.mod_le; discriminate).
    intros x Hx. destruct (N.lt_ge_cases x last) as [L|L]; [auto|].
    destruct (N.lt_ge_cases x (start p)) as [L2|L2].
    + right. eapply value_check_ok; [exact V|]. lia.
    + left. exists p. split; auto. unfold inside. lia.
Qed.

Lemma unused_walk_total : good rs -> (forall r, In r rs -> start r + len r <= fsize) -> (forall x, rfail x = false) ->
  (forall x, x < fsize -> accounted x) ->
  forall f last, (length (above last rs) <= f)%nat -> last <= fsize ->
  (forall r, In r rs -> start r < last -> start r + len r <= last) ->
  unused_walk rfail f m find last fsize unused = Some HfOk.
Proof.
  intros G IN NF ACC. pose proof (good_disjoint rs G) as (_ & D). destruct G as (P & _). rewrite Forall_forall in P.
  assert (GAP: forall last e, e <= fsize -> (forall r, In r rs -> start r < last -> start r + len r <= last) ->
     (forall r, In r rs -> last <= start r -> e <= start r) ->
     forall x, last <= x < e -> m x = unused).
  { intros last e E B1 B2 x Hx. destruct (ACC x ltac:(lia)) as [(r & Hr & Hin)|]; auto. exfalso.
    unfold inside in Hin. destruct (N.lt_ge_cases (start r) last); [specialize (B1 r Hr ltac:(auto))|specialize (B2 r Hr ltac:(auto))]; lia. }
  induction f as [|f IH]; intros last Hf LE B; cbn [unused_walk]; pose proof (F last) as FL.
  - destruct (find last) as [p|].
    + exfalso. destruct FL as (I1 & I2 & _). unfold above in Hf.
      assert (X: In p (filter (fun r => last <=? start r) rs)) by (apply filter_In; split; [auto|lia]).
      destruct (filter _ rs); [destruct X|cbn [length] in Hf; lia].
    + rewrite sub32_le by lia. rewrite value_check_total; auto. intros x Hx. cbn [finds] in FL.
      eapply GAP with (e := fsize); [lia|exact B| |lia]. intros r Hr Hl. specialize (FL r Hr). lia.
  - destruct (find last) as [p|].
    + destruct FL as (I1 & I2 & I3). pose proof (P p I1) as PP. pose proof PP as (PL & PE).
      pose proof (IN p I1). rewrite sub32_le by lia. rewrite value_check_total; auto.
      * rewrite past_proper by auto. apply IH; [|lia|].
        -- pose proof (above_shrinks last (start p + len p) rs p I1 I2 ltac:(lia) ltac:(lia)). lia.
        -- intros r Hr Hs. destruct (N.lt_ge_cases (start r) last); [specialize (B r Hr ltac:(auto)); lia|].
           specialize (I3 r Hr ltac:(auto)).
           assert (DEC: {p = r} + {p <> r}) by (decide equality; apply N.eq_dec).
           destruct DEC as [<-|Ne]; [lia|].
           pose proof (disjoint_order p r PP (P r Hr) (D p r I1 Hr Ne) I3). lia.
      * intros x Hx. eapply GAP with (e := start p); [lia|exact B|exact I3|lia].
    + rewrite sub32_le by lia. rewrite value_check_total; auto. intros x Hx. cbn [finds] in FL.
      eapply GAP with (e := fsize); [lia|exact B| |lia]. intros r Hr Hl. specialize (FL r Hr). lia.
Qed.

(** A walk whose fuel runs out visits regions for ever. *)
Lemma unused_walk_none : forall f last, unused_walk rfail f m find last fsize unused = None -> visit f find last = None.
Proof.
  induction f as [|f IH]; intros last H; cbn [unused_walk visit] in *; destruct (find last) as [p|]; try discriminate; auto.
  destruct (value_check rfail m last (N.to_nat (sub32 (start p) last)) unused); try discriminate.
  now rewrite IH.
Qed.

Lemma unused_walk_more : forall f f' last r, (f <= f')%nat -> unused_walk rfail f m find last fsize unused = Some r ->
  unused_walk rfail f' m find last fsize unused = Some r.
Proof.
  induction f as [|f IH]; intros f' last r L H; cbn [unused_walk] in H.
  - destruct (find last) as [p|] eqn:E; [discriminate|]. destruct f'; cbn [unused_walk]; now rewrite E.
  - destruct f' as [|f']; [lia|]. cbn [unused_walk]. destruct (find last) as [p|] eqn:E; auto.
    destruct (value_check rfail m last (N.to_nat (sub32 (start p) last)) unused); auto. apply IH; auto. lia.
Qed.
End Walk.
End Verify.
