(** Freeing a block keeps the heap tiled by linked blocks. *)
From Coq Require Import List NArith Bool Arith Lia Permutation.
From Coq Require Import ZifyBool ZifyNat ZifyN.
From Verif Require Import Base Heap_Model Heap_Spec Heap_Links_Proofs Heap_Proofs Heap_Inv_Proofs.
Import ListNotations.
Local Open Scope N_scope.

Section Free.
  Variable HL base len : N.
  Hypothesis HL0 : 0 < HL.
  Hypothesis B0 : 0 < base.
  Notation Inv := (Inv HL base len).

  Lemma free_tail_nil l : frees l = [] -> forall b, In b l -> bf b = false.
  Proof.
    intros E b Hb. destruct (bf b) eqn:Hf; [|reflexivity]. exfalso.
    assert (In (ba b) (frees l)) as Hi by (apply frees_in; eauto). rewrite E in Hi. exact Hi.
  Qed.

  Lemma lastfree_tail a b l2 : frees l2 = [] -> l2 <> [] -> lastfree (a ++ b :: l2) = false.
  Proof.
    intros E Hn. destruct (exists_last Hn) as (t & x & ->).
    change (a ++ b :: t ++ [x]) with (a ++ (b :: t) ++ [x]). rewrite app_assoc, lastfree_snoc.
    apply (free_tail_nil (t ++ [x]) E). apply in_or_app. right. now left.
  Qed.

  Lemma lastfree_nofree l : frees l = [] -> lastfree l = false.
  Proof.
    intros E. destruct l as [|b l]; [reflexivity|]. destruct (exists_last (l := b :: l)) as (t & x & Ex); [discriminate|].
    rewrite Ex in *. rewrite lastfree_snoc. apply (free_tail_nil _ E). apply in_or_app. right. now left.
  Qed.

  Lemma headfree_nofree l : frees l = [] -> headfree l = false.
  Proof. intros E. destruct l as [|b l]; [reflexivity|]. apply (free_tail_nil _ E). now left. Qed.

  Lemma headfree_app l b r : frees l = [] -> l <> [] -> headfree (l ++ b :: r) = false.
  Proof. intros E Hn. destruct l as [|c l]; [congruence|]. apply (free_tail_nil _ E). now left. Qed.

  Lemma finish m' by' L bb ss R A' :
    tiles HL base L bb -> tiles HL (bb + HL + ss) R (base + len) ->
    sparse L -> sparse R -> lastfree L = false -> headfree R = false ->
    (forall b, In b L \/ In b R -> mg m' (ba b) = MAGIC /\ sz m' (ba b) = bs b) ->
    mg m' bb = MAGIC -> sz m' bb = ss ->
    seg m' 0 (frees L ++ bb :: frees R) 0 -> seg m' 0 A' 0 -> Permutation A' (used L ++ used R) ->
    Inv (Heap m' by' (first 0 (frees L ++ bb :: frees R)) (first 0 A')) (L ++ Blk bb ss true :: R) A'.
  Proof.
    intros T1 T2 S1 S2 LF HF HC M S SF SA HP.
    assert (FR : frees (L ++ Blk bb ss true :: R) = frees L ++ bb :: frees R) by (now rewrite frees_app).
    constructor; cbn [hm fl al].
    - apply tiles_app. exists bb. split; [exact T1|]. cbn [tiles ba bs]. auto.
    - intros b Hb. apply in_app_iff in Hb. destruct Hb as [Hb|[<-|Hb]]; [apply HC; auto|cbn [ba bs]; auto|apply HC; auto].
    - rewrite FR. exact SF.
    - now rewrite FR.
    - rewrite used_app. cbn. exact HP.
    - exact SA.
    - reflexivity.
    - apply sparse_app. split; [exact S1|]. split; [|left; exact LF].
      destruct R as [|c R]; cbn [sparse]; auto. 
  Qed.

  (** The free blocks to the right of the freed one. *)
  Lemma right_side R e lim : tiles HL e R lim -> sparse R ->
    (frees R = [] /\ headfree R = false) \/
    (exists n F2 b1 sn b2, frees R = n :: F2 /\ R = b1 ++ Blk n sn true :: b2 /\ frees b1 = [] /\ frees b2 = F2 /\
       ((b1 = [] /\ e = n /\ headfree b2 = false /\ sparse b2 /\ tiles HL (e + HL + sn) b2 lim) \/
        (b1 <> [] /\ e <> n /\ headfree R = false))).
  Proof.
    intros T S. destruct (frees R) as [|n F2] eqn:EF.
    - left. split; [reflexivity|]. now apply headfree_nofree.
    - right. destruct (frees_split R [] n F2 EF) as (b1 & sn & b2 & ER & E1 & E2).
      exists n, F2, b1, sn, b2. split; [reflexivity|]. split; [exact ER|]. split; [exact E1|]. split; [exact E2|].
      destruct b1 as [|c b1].
      + left. subst R. cbn [app tiles ba bs sparse] in *. destruct T as (<- & T). split; [reflexivity|]. split; [reflexivity|].
        destruct b2 as [|d b2]; [cbn; auto|]. destruct S as ([H|H] & S); [discriminate|]. auto.
      + right. split; [discriminate|]. split.
        * subst R. cbn [app tiles] in T. destruct T as (<- & T).
          destruct (tiles_in HL HL0 _ _ _ (Blk n sn true) T) as [H _]; [apply in_or_app; right; now left|]. cbn [ba] in H. lia.
        * subst R. apply headfree_app; [exact E1|discriminate].
  Qed.

  (** The free blocks to the left. *)
  Lemma left_side L lim fb : tiles HL lim L fb -> sparse L ->
    (frees L = [] /\ lastfree L = false) \/
    (exists F1 r a1 sr a2, frees L = F1 ++ [r] /\ L = a1 ++ Blk r sr true :: a2 /\ frees a1 = F1 /\ frees a2 = [] /\
       ((a2 = [] /\ r + HL + sr = fb /\ lastfree a1 = false /\ sparse a1 /\ tiles HL lim a1 r) \/
        (a2 <> [] /\ r + HL + sr <> fb /\ lastfree L = false))).
  Proof.
    intros T S. destruct (split_last (frees L)) as [EF|(F1 & r & EF)].
    - left. split; [exact EF|]. now apply lastfree_nofree.
    - right. destruct (frees_split L F1 r [] EF) as (a1 & sr & a2 & EL & E1 & E2).
      exists F1, r, a1, sr, a2. split; [exact EF|]. split; [exact EL|]. split; [exact E1|]. split; [exact E2|].
      destruct a2 as [|c a2].
      + left. subst L. apply tiles_app in T. destruct T as (m & T1 & T2). cbn [tiles ba bs] in T2. destruct T2 as (<- & T2).
        apply sparse_app in S. destruct S as (S1 & _ & S3). cbn [headfree bf] in S3. destruct S3 as [S3|S3]; [|discriminate]. auto.
      + right. split; [discriminate|]. split.
        * subst L. apply tiles_app in T. destruct T as (m & T1 & T2). cbn [tiles ba bs] in T2. destruct T2 as (<- & _ & T2).
          apply (tiles_le HL HL0) in T2. lia.
        * subst L. apply lastfree_tail; [exact E2|discriminate].
  Qed.

  Lemma free_spec fuel h l A fb s :
    Inv h l A -> In (Blk fb s false) l -> (length l < fuel)%nat ->
    exists h' l' A1 A2, free HL fuel h (fb + HL) = Some h' /\ bytes h' = bytes h /\
      A = A1 ++ fb :: A2 /\ Inv h' l' (A1 ++ A2) /\
      (forall b, bf b = false -> In b l' <-> (In b l /\ b <> Blk fb s false)) /\
      (forall x, ~ In x (map ba l) -> same_at (hm h) (hm h') x).
  Proof.
    intros I Hb Hf.
    destruct (inv_nodup HL base len HL0 B0 _ _ _ I) as (N1 & N2 & N3 & N4 & Z1 & Z2 & Z3).
    destruct (i_ctrl _ _ _ _ _ _ I _ Hb) as [Mb Sb]. cbn [ba bs] in Mb, Sb.
    assert (HA : In fb A) by (apply (Permutation_in _ (Permutation_sym (i_used _ _ _ _ _ _ I))), used_in; exists (Blk fb s false); auto).
    destruct (in_split _ _ Hb) as (l1 & l2 & El). destruct (in_split _ _ HA) as (A1 & A2 & EA).
    assert (fb <> 0) by (intros ->; auto).
    unfold free. rewrite (proj2 (N.eqb_neq (fb + HL) 0)) by lia. cbv zeta. replace (fb + HL - HL) with fb by lia.
    rewrite Mb, N.eqb_refl. cbn [negb].
    destruct (unlink (hm h) (al h) fb) as [m1 al1] eqn:EU.
    pose proof (i_alloc _ _ _ _ _ _ I) as SA. pose proof (i_al _ _ _ _ _ _ I) as Hal. rewrite EA in SA, Hal.
    assert (N3' : NoDup (A1 ++ fb :: A2)) by (now rewrite <- EA). assert (Z3' : ~ In 0 (A1 ++ fb :: A2)) by (now rewrite <- EA).
    destruct (unlink_spec _ _ _ _ _ _ _ N3' Z3' SA Hal EU) as (V1 & V2 & V3 & V4 & V5). subst al1.
    assert (fbA : ~ In fb (A1 ++ A2)).
    { apply NoDup_remove_2 in N3'. exact N3'. }
    set (m2 := set_pv (set_nx m1 fb 0) fb 0).
    assert (Mg2 : mg m2 = mg (hm h)) by (unfold m2; cbn; exact V3).
    assert (Sz2 : sz m2 = sz (hm h)) by (unfold m2; cbn; exact V4).
    assert (SA2 : seg m2 0 (A1 ++ A2) 0).
    { eapply seg_ext; [|exact V1]. intros x Hx. unfold m2. cbn. rewrite !put_other; auto; intros ->; auto. }
    assert (inA : forall x, In x (A1 ++ A2) -> In x A) by (intros x Hx; rewrite EA; apply in_app_iff in Hx; apply in_app_iff; cbn [In]; tauto).
    assert (fbF : ~ In fb (frees l)) by (intros Hi; exact (N4 _ Hi HA)).
    assert (SF2 : seg m2 0 (frees l) 0).
    { eapply seg_ext; [|exact (i_free _ _ _ _ _ _ I)]. intros x Hx. unfold m2. cbn.
      assert (x <> fb) by (intros ->; auto). rewrite !put_other by auto. apply V5. intros Hi. apply (N4 x Hx). auto. }
    assert (EFr : frees l = frees l1 ++ frees l2) by (rewrite El, frees_app; reflexivity).
    assert (Off2 : forall x, ~ In x A -> x <> fb -> nx m2 x = nx (hm h) x /\ pv m2 x = pv (hm h) x).
    { intros x Hx Hn. unfold m2. cbn. rewrite !put_other by auto. apply V5. auto. }
    pose proof (i_tiles _ _ _ _ _ _ I) as HT. rewrite El in HT. apply tiles_app in HT. destruct HT as (mm & T1 & T2). cbn [tiles ba bs] in T2. destruct T2 as (<- & T2).
    pose proof (i_sparse _ _ _ _ _ _ I) as SP. rewrite El in SP. apply sparse_app in SP. destruct SP as (SP1 & SP2 & _).
    assert (SPr : sparse l2) by (destruct l2 as [|c l2]; [exact Logic.I|apply SP2]).
    assert (PU : Permutation (A1 ++ A2) (used l1 ++ used l2)).
    { pose proof (i_used _ _ _ _ _ _ I) as P. rewrite EA, El, used_app in P. cbn in P. 
      apply Permutation_app_inv in P. exact P. }
    assert (ctl : forall b, In b l1 \/ In b l2 -> mg (hm h) (ba b) = MAGIC /\ sz (hm h) (ba b) = bs b).
    { intros b Hi. apply (i_ctrl _ _ _ _ _ _ I). rewrite El. apply in_or_app. cbn [In]. tauto. }
    assert (ne_fb : forall b, In b l1 \/ In b l2 -> ba b <> fb).
    { intros b Hi E. rewrite El, map_app in N1. cbn [map ba] in N1. apply NoDup_remove_2 in N1. apply N1. rewrite <- E.
      apply in_or_app. destruct Hi; [left|right]; now apply in_map. }
    assert (lo : forall x, In x (frees l1) -> x < fb).
    { intros x Hx. apply frees_in in Hx. destruct Hx as (b & Hi & <- & _). destruct (tiles_in HL HL0 _ _ _ _ T1 Hi). lia. }
    assert (hi : forall x, In x (frees l2) -> fb < x).
    { intros x Hx. apply frees_in in Hx. destruct Hx as (b & Hi & <- & _). destruct (tiles_in HL HL0 _ _ _ _ T2 Hi). lia. }
    assert (Mfb2 : mg m2 fb = MAGIC) by (now rewrite Mg2). assert (Sfb2 : sz m2 fb = s) by (now rewrite Sz2).
    assert (NF : NoDup (frees l1 ++ fb :: frees l2)).
    { apply NoDup_Add with (a := fb) (l := frees l1 ++ frees l2); [apply Add_app|]. rewrite <- EFr. auto. }
    assert (ZF : ~ In 0 (frees l1 ++ fb :: frees l2)).
    { rewrite in_app_iff. cbn [In]. rewrite EFr, in_app_iff in Z2. tauto. }
    assert (subF : forall x, In x (frees l1 ++ fb :: frees l2) -> In x (map ba l)).
    { intros x Hx. rewrite El, map_app, in_app_iff. cbn [map ba In]. apply in_app_iff in Hx. cbn [In] in Hx.
      destruct Hx as [Hx|[Hx|Hx]]; [left|right; left; auto|right; right]; apply frees_in in Hx; destruct Hx as (b & Hi & <- & _); now apply in_map. }
    assert (subA : forall x, In x A -> In x (map ba l)).
    { intros x Hx. apply (Permutation_in _ (i_used _ _ _ _ _ _ I)) in Hx. apply used_in in Hx. destruct Hx as (b & Hi & <- & _). now apply in_map. }
    assert (notA : forall x, In x (frees l1 ++ fb :: frees l2) -> ~ In x (A1 ++ A2)).
    { intros x Hx Hi. apply in_app_iff in Hx. cbn [In] in Hx. destruct Hx as [Hx|[<-|Hx]]; auto; apply (N4 x); auto; rewrite EFr; apply in_app_iff; tauto. }
    rewrite (i_fl _ _ _ _ _ _ I), EFr. rewrite EFr in SF2.
    (* what is left to show once the final memory is known *)
    assert (goal : forall m' L bb ss R,
      (forall x, ~ In x (frees l1 ++ fb :: frees l2) -> nx m' x = nx m2 x /\ pv m' x = pv m2 x) ->
      tiles HL base L bb -> tiles HL (bb + HL + ss) R (base + len) ->
      sparse L -> sparse R -> lastfree L = false -> headfree R = false ->
      (forall b, In b L -> In b l1) -> (forall b, In b R -> In b l2) ->
      (forall b, bf b = false -> In b l1 -> In b L) -> (forall b, bf b = false -> In b l2 -> In b R) ->
      used L = used l1 -> used R = used l2 ->
      (forall b, In b L \/ In b R -> mg m' (ba b) = mg m2 (ba b) /\ sz m' (ba b) = sz m2 (ba b)) ->
      (forall x, ~ In x (frees l1 ++ fb :: frees l2) -> mg m' x = mg m2 x /\ sz m' x = sz m2 x) ->
      mg m' bb = MAGIC -> sz m' bb = ss ->
      seg m' 0 (frees L ++ bb :: frees R) 0 ->
      exists h' l' A1' A2',
        Some (Heap m' (bytes h) (first 0 (frees L ++ bb :: frees R)) (first 0 (A1 ++ A2))) = Some h' /\ bytes h' = bytes h /\
        A = A1' ++ fb :: A2' /\ Inv h' l' (A1' ++ A2') /\
        (forall b, bf b = false -> In b l' <-> (In b l /\ b <> Blk fb s false)) /\
        (forall x, ~ In x (map ba l) -> same_at (hm h) (hm h') x)).
    { intros m' L bb ss R Hlk Ht1 Ht2 Hs1 Hs2 Hlf Hhf HL1 HR1 HL2 HR2 HU1 HU2 Hc Hc2 Hm Hs Hseg.
      exists (Heap m' (bytes h) (first 0 (frees L ++ bb :: frees R)) (first 0 (A1 ++ A2))), (L ++ Blk bb ss true :: R), A1, A2.
      split; [reflexivity|]. split; [reflexivity|]. split; [exact EA|]. split; [|split].
      - apply finish; auto.
        + intros b Hi. destruct (Hc b Hi) as [-> ->]. rewrite Mg2, Sz2. apply ctl. destruct Hi; auto.
        + eapply seg_ext; [|exact SA2]. intros x Hx. apply Hlk. intros Hi. exact (notA x Hi Hx).
        + now rewrite HU1, HU2.
      - intros b Hbf. rewrite El, !in_app_iff. cbn [In]. split.
        + intros [Hi|[Hi|Hi]].
          * split; [auto|]. intros ->. apply (ne_fb (Blk fb s false)); auto.
          * subst b. discriminate.
          * split; [auto|]. intros ->. apply (ne_fb (Blk fb s false)); auto.
        + intros [[Hi|[Hi|Hi]] Hn]; auto. congruence.
      - intros x Hx. cbn [hm]. assert (x1 : ~ In x (frees l1 ++ fb :: frees l2)) by auto.
        assert (x2 : ~ In x A) by auto. assert (x3 : x <> fb) by (intros ->; apply x1; apply in_or_app; right; now left).
        destruct (Hlk x x1) as [E1 E2], (Hc2 x x1) as [E3 E4], (Off2 x x2 x3) as [E5 E6].
        unfold same_at. now rewrite E1, E2, E3, E4, E5, E6, Mg2, Sz2. }
    (* joining with the block to the right, for a block that is in the list already *)
    assert (join : forall m3 L bb ss,
      (forall x, ~ In x (frees l1 ++ fb :: frees l2) -> nx m3 x = nx m2 x /\ pv m3 x = pv m2 x) ->
      tiles HL base L bb -> bb + HL + ss = fb + HL + s ->
      sparse L -> lastfree L = false ->
      (forall b, In b L -> In b l1) -> (forall b, bf b = false -> In b l1 -> In b L) ->
      used L = used l1 -> NoDup (frees L ++ bb :: frees l2) -> (forall b, In b L -> ba b <> bb) ->
      (forall x, In x (frees L ++ bb :: frees l2) -> In x (frees l1 ++ fb :: frees l2)) ->
      (forall b, In b L \/ In b l2 -> mg m3 (ba b) = mg m2 (ba b) /\ sz m3 (ba b) = sz m2 (ba b)) ->
      (forall x, ~ In x (frees l1 ++ fb :: frees l2) -> mg m3 x = mg m2 x /\ sz m3 x = sz m2 x) ->
      mg m3 bb = MAGIC -> sz m3 bb = ss ->
      seg m3 0 (frees L ++ bb :: frees l2) 0 ->
      forall rr hd, hd = first 0 (frees L ++ [bb]) -> exists h' l' A1' A2',
        Some (Heap (join_next HL m3 bb (first 0 (frees l2)) rr true) (bytes h) hd (first 0 (A1 ++ A2))) = Some h' /\ bytes h' = bytes h /\
        A = A1' ++ fb :: A2' /\ Inv h' l' (A1' ++ A2') /\
        (forall b, bf b = false -> In b l' <-> (In b l /\ b <> Blk fb s false)) /\
        (forall x, ~ In x (map ba l) -> same_at (hm h) (hm h') x)).
    { intros m3 L bb ss Hlk Ht1 Ee Hs1 Hlf HL1 HL2 HU1 HN Hnb Hsub Hc Hc2 Hm Hs Hseg rr hd ->.
      assert (HZ : ~ In 0 (frees L ++ bb :: frees l2)) by (intros Hi; apply ZF; auto).
      pose proof (join_in_spec HL m3 (frees L) bb (frees l2) rr HN HZ Hseg) as J. cbv zeta in J.
      assert (HD : forall X, first 0 (frees L ++ [bb]) = first 0 (frees L ++ bb :: X)) by (intros; destruct (frees L); reflexivity).
      assert (Te : tiles HL (bb + HL + ss) l2 (base + len)) by (rewrite Ee; exact T2).
      destruct (right_side l2 _ _ T2 SPr) as [(E1 & E2)|(n & F2 & b1 & sn & b2 & E1 & E2 & E3 & E4 & [(-> & E5 & E6 & E7 & E8)|(E5 & E6 & E7)])].
      - rewrite E1 in J. rewrite E1, J, (HD (frees l2)). apply (goal m3 L bb ss l2); auto.
      - (* joined *)
        rewrite E1 in J. unfold block_end in J. rewrite Hs, Ee, E5, N.eqb_refl in J. destruct J as (J1 & J2 & J3 & J4). rewrite E1.
        cbn [app] in E2. rewrite <- E4 in J1, J4.
        assert (Hn2 : In (Blk n sn true) l2) by (rewrite E2; now left).
        assert (Sn : sz m3 n = sn).
        { destruct (Hc (Blk n sn true) (or_intror Hn2)) as [_ C]. cbn [ba] in C. rewrite C, Sz2. now destruct (ctl _ (or_intror Hn2)). }
        rewrite <- Ee in J3 || idtac.
        assert (nb : bb <> n).
        { rewrite E1 in HN. apply NoDup_app_iff in HN. destruct HN as (_ & HN & _). apply NoDup_cons_iff in HN. destruct HN as (HN & _). intros ->. apply HN. now left. }
        assert (Nn2 : forall b, In b b2 -> ba b <> n).
        { intros b Hi E. destruct (tiles_in HL HL0 _ _ _ _ E8 Hi). lia. }
        assert (Nn1 : forall b, In b L -> ba b <> n).
        { intros b Hi E. destruct (tiles_in HL HL0 _ _ _ _ T1 (HL1 b Hi)). lia. }
        assert (Bb2 : forall b, In b b2 -> ba b <> bb).
        { intros b Hi E. destruct (tiles_in HL HL0 _ _ _ _ E8 Hi). lia. }
        assert (G := goal (join_next HL m3 bb n rr true) L bb (ss + (sn + HL)) b2).
        assert (in2 : In n (frees l1 ++ fb :: frees l2)) by (apply in_or_app; right; right; rewrite E1; now left).
        assert (inb : In bb (frees l1 ++ fb :: frees l2)) by (apply Hsub, in_or_app; right; now left).
        rewrite (HD (frees b2)). cbn [first] in J1, J2, J3, J4. apply G; clear G; auto.
        + intros x Hx. destruct (J4 x) as [Q1 Q2]; [|rewrite Q1, Q2; auto]. intros Hi. apply Hx, Hsub. now rewrite E1, <- E4.
        + replace (bb + HL + (ss + (sn + HL))) with (fb + HL + s + HL + sn) by lia. exact E8.
        + intros b Hi. rewrite E2. now right.
        + intros b Hbf Hi. rewrite E2 in Hi. destruct Hi as [<-|Hi]; [discriminate|auto].
        + rewrite E2. reflexivity.
        + intros b Hi. rewrite J2, J3. assert (ba b <> n) by (destruct Hi; auto). assert (ba b <> bb) by (destruct Hi; auto).
          rewrite !put_other by auto. apply Hc. destruct Hi; auto. right. rewrite E2. now right.
        + intros x Hx. rewrite J2, J3. rewrite !put_other by (intros ->; auto). auto.
        + rewrite J2, put_other by auto. exact Hm.
        + rewrite J3, put_other, put_same, Sn by auto. reflexivity.
      - rewrite E1 in J. unfold block_end in J. rewrite Hs, Ee, (proj2 (N.eqb_neq _ _) E6) in J. rewrite E1, J, (HD (frees l2)).
        apply (goal m3 L bb ss l2); auto. }
    assert (FL : (length (frees l1) < fuel)%nat).
    { unfold frees. rewrite map_length. pose proof (filter_length_le bf l1). rewrite El, app_length in Hf. cbn [length] in Hf. lia. }
    destruct (left_side l1 _ _ T1 SP1) as [(E1 & E2)|(F1 & r & a1 & sr & a2 & E1 & E2 & E3 & E4 & D)].
    - (* nothing free to the left *)
      rewrite E1 in *. cbn [app] in *. destruct (frees l2) as [|n F2] eqn:Efr2; cbn [first].
      + rewrite N.eqb_refl.
        assert (G := goal m2 l1 fb s l2). rewrite E1, Efr2 in G. cbn [app first] in G. apply G; auto.
        * apply headfree_nofree. exact Efr2.
        * cbn [seg]. unfold m2. cbn. now rewrite !put_same.
      + assert (n <> 0) by (intros ->; apply ZF; right; now left). rewrite (proj2 (N.eqb_neq n 0)) by assumption.
        rewrite (walk_spec m2 fb [] 0 n F2 fuel).
        2:{ exact SF2. } 2:{ intros Hi. apply ZF. now right. } 2:{ intros x []. } 2:{ intros x Hx. apply hi. now right. } 2:{ exact FL. }
        cbn [last]. rewrite (proj2 (N.ltb_lt fb n)) by (apply hi; now left).
        set (m3 := set_pv (set_nx m2 fb n) n fb).
        assert (nfb : n <> fb) by (specialize (hi n (or_introl eq_refl)); lia).
        change n with (first 0 (n :: F2)) at 1.
        assert (J := join m3 l1 fb s). rewrite E1 in J. cbn [app] in J. apply J; auto.
        * intros x Hx. unfold m3. cbn. cbn [In] in Hx. rewrite !put_other; auto; intros ->; tauto.
        * cbn [seg first] in *. destruct SF2 as (Q1 & Q2 & Q3). unfold m3. cbn [nx pv set_pv set_nx].
          rewrite (put_other _ n _ fb), !put_same, (put_other _ fb _ n) by auto.
          repeat split; auto. { unfold m2. cbn. now rewrite put_same. }
          eapply seg_ext; [|exact Q3]. intros x Hx. cbn. apply NoDup_cons_iff in NF. destruct NF as [NF1 NF2]. apply NoDup_cons_iff in NF2.
          assert (x <> fb) by (intros ->; apply NF1; now right). assert (x <> n) by (intros ->; tauto). now rewrite !put_other by auto.
    - (* a free block to the left *)
      assert (Hr1 : In (Blk r sr true) l1) by (rewrite E2; apply in_or_app; right; now left).
      assert (Sr : sz m2 r = sr) by (rewrite Sz2; now destruct (ctl _ (or_introl Hr1))).
      assert (Mr : mg m2 r = MAGIC) by (rewrite Mg2; now destruct (ctl _ (or_introl Hr1))).
      assert (rlt : r < fb) by (apply lo; rewrite E1; apply in_or_app; right; now left).
      assert (f0 : first 0 (frees l1 ++ frees l2) <> 0).
      { rewrite E1. intros Ez. apply ZF. rewrite E1. destruct F1 as [|a F1]; cbn [app first] in *; left; exact Ez. }
      rewrite (proj2 (N.eqb_neq _ _) f0).
      assert (WK : walk fuel m2 (first 0 (frees l1 ++ frees l2)) fb = Some r).
      { rewrite E1 in *. destruct F1 as [|a F1].
        - cbn [app first] in *. apply (walk_spec m2 fb [] 0 r (frees l2) fuel); auto.
          + cbn [app]. intros Hi. apply ZF. cbn [In] in *. tauto.
          + intros x [].
          + cbn [length] in *. lia.
        - cbn [app first] in *. rewrite (walk_spec m2 fb (F1 ++ [r]) 0 a (frees l2) fuel); auto.
          + f_equal. apply last_snoc.
          + intros Hi. apply ZF. cbn [In] in *. rewrite !in_app_iff in *. cbn [In] in *. tauto.
          + intros x Hx. apply lo. now right.
          + cbn [length] in FL. lia. }
      rewrite WK. rewrite (proj2 (N.ltb_ge fb r)) by lia.
      assert (SF3 : seg m2 0 (F1 ++ r :: frees l2) 0) by (rewrite E1, <- app_assoc in SF2; exact SF2).
      assert (Nr : nx m2 r = first 0 (frees l2)).
      { apply seg_app in SF3. destruct SF3 as (_ & _ & Q & _). exact Q. }
      rewrite Nr. unfold block_end at 1. rewrite Sr.
      assert (hd_eq : first 0 (frees l1 ++ frees l2) = first 0 (F1 ++ [r])).
      { rewrite E1. destruct F1; reflexivity. }
      destruct D as [(-> & D1 & D2 & D3 & D4)|(D1 & D2 & D3)].
      + (* joined with it *)
        rewrite D1, N.eqb_refl. set (m4 := wipe (set_sz m2 r (sr + (sz m2 fb + HL))) fb).
        assert (rfb : r <> fb) by lia.
        assert (a1r : forall b, In b a1 -> ba b <> r).
        { intros b Hi E. destruct (tiles_in HL HL0 _ _ _ _ D4 Hi). lia. }
        assert (NFr : NoDup (F1 ++ r :: frees l2)).
        { rewrite E1, <- app_assoc in NF. cbn [app] in NF. rewrite E1, <- app_assoc in EFr. cbn [app] in EFr. now rewrite <- EFr. }
        rewrite hd_eq.
        assert (J := join m4 a1 r (sr + (s + HL))). rewrite E3 in J. apply J; auto.
        * intros x Hx. unfold m4. cbn. rewrite !put_other; auto; intros ->; apply Hx, in_or_app; right; now left.
        * lia.
        * intros b Hi. rewrite E2. apply in_or_app. now left.
        * intros b Hbf Hi. rewrite E2 in Hi. apply in_app_iff in Hi. destruct Hi as [Hi|[<-|[]]]; [auto|discriminate].
        * rewrite E2, used_app. cbn. now rewrite app_nil_r.
        * intros x Hx. rewrite E1, <- app_assoc. cbn [app]. apply in_app_iff in Hx. apply in_app_iff. cbn [In] in *. tauto.
        * intros b Hi. unfold m4. cbn.
          assert (ba b <> fb) by (apply ne_fb; destruct Hi as [Hi|Hi]; [left; rewrite E2; apply in_or_app; now left|now right]).
          assert (ba b <> r). { destruct Hi as [Hi|Hi]; [auto|]. destruct (tiles_in HL HL0 _ _ _ _ T2 Hi). lia. }
          now rewrite !put_other by auto.
        * intros x Hx. unfold m4. cbn.
          assert (x <> fb) by (intros ->; apply Hx, in_or_app; right; now left).
          assert (x <> r) by (intros ->; apply Hx; rewrite E1; apply in_or_app; left; apply in_or_app; right; now left).
          now rewrite !put_other by auto.
        * unfold m4. cbn. rewrite put_other by auto. exact Mr.
        * unfold m4. cbn [wipe set_nx set_pv set_sz set_mg sz]. rewrite put_other, put_same by auto. now rewrite Sfb2.
        * eapply seg_ext; [|exact SF3]. intros x Hx. unfold m4. cbn.
          assert (x <> fb). { intros ->. apply fbF. rewrite EFr, E1, <- app_assoc. exact Hx. }
          now rewrite !put_other by auto.
      + (* linked after it *)
        rewrite (proj2 (N.eqb_neq _ _) D2).
        assert (NF' : NoDup (F1 ++ r :: fb :: frees l2)) by (rewrite E1, <- app_assoc in NF; exact NF).
        assert (ZF' : ~ In 0 (F1 ++ r :: fb :: frees l2)) by (rewrite E1, <- app_assoc in ZF; exact ZF).
        destruct (join_out_spec HL m2 F1 r fb (frees l2) NF' ZF' SF3) as (K1 & K2).
        assert (EX : forall X, frees l1 ++ fb :: X = F1 ++ r :: fb :: X) by (intros; rewrite E1, <- app_assoc; reflexivity).
        assert (HD : forall X, first 0 (frees l1 ++ frees l2) = first 0 (frees l1 ++ fb :: X)) by (intros; rewrite E1; destruct F1; reflexivity).
        set (m' := join_next HL m2 fb (first 0 (frees l2)) r false) in *.
        assert (K1' : forall x, ~ In x (frees l1 ++ fb :: frees l2) -> nx m' x = nx m2 x /\ pv m' x = pv m2 x) by (intros x Hx; apply K1; now rewrite <- EX).
        destruct (right_side l2 _ _ T2 SPr) as [(R1 & R2)|(n & F2 & b1 & sn & b2 & R1 & R2 & R3 & R4 & [(-> & R5 & R6 & R7 & R8)|(R5 & R6 & R7)])].
        * rewrite R1 in K2. destruct K2 as (K3 & K4 & K5). rewrite <- EX in K3.
          rewrite (HD (frees l2)). apply (goal m' l1 fb s l2); auto; rewrite ?K4, ?K5; auto.
          now rewrite R1.
        * rewrite R1 in K2. unfold block_end in K2. rewrite Sfb2, R5, N.eqb_refl in K2. destruct K2 as (K3 & K4 & K5). rewrite <- EX, <- R4 in K3.
          cbn [app] in R2. assert (Hn2 : In (Blk n sn true) l2) by (rewrite R2; now left).
          assert (Sn : sz m2 n = sn) by (rewrite Sz2; now destruct (ctl _ (or_intror Hn2))).
          assert (Nn2 : forall b, In b b2 -> ba b <> n).
          { intros b Hi E. destruct (tiles_in HL HL0 _ _ _ _ R8 Hi). lia. }
          assert (Nn1 : forall b, In b l1 -> ba b <> n).
          { intros b Hi E. destruct (tiles_in HL HL0 _ _ _ _ T1 Hi). lia. }
          assert (nfb : fb <> n) by lia.
          assert (in2 : In n (frees l1 ++ fb :: frees l2)) by (apply in_or_app; right; right; rewrite R1; now left).
          rewrite (HD (frees b2)). apply (goal m' l1 fb (s + (sn + HL)) b2); auto.
          -- replace (fb + HL + (s + (sn + HL))) with (fb + HL + s + HL + sn) by lia. exact R8.
          -- intros b Hi. rewrite R2. now right.
          -- intros b Hbf Hi. rewrite R2 in Hi. destruct Hi as [<-|Hi]; [discriminate|auto].
          -- rewrite R2. reflexivity.
          -- intros b Hi. rewrite K4, K5. assert (ba b <> n) by (destruct Hi; auto).
             assert (ba b <> fb) by (apply ne_fb; destruct Hi as [Hi|Hi]; [auto|right; rewrite R2; now right]).
             now rewrite !put_other by auto.
          -- intros x Hx. rewrite K4, K5. assert (x <> n) by (intros ->; auto).
             assert (x <> fb) by (intros ->; apply Hx, in_or_app; right; now left). now rewrite !put_other by auto.
          -- rewrite K4, put_other by auto. exact Mfb2.
          -- rewrite K5, put_other, put_same, Sn by auto. reflexivity.
        * rewrite R1 in K2. unfold block_end in K2. rewrite Sfb2, (proj2 (N.eqb_neq _ _) R6) in K2. destruct K2 as (K3 & K4 & K5).
          rewrite <- EX, <- R1 in K3. rewrite (HD (frees l2)). apply (goal m' l1 fb s l2); auto; rewrite ?K4, ?K5; auto.
  Qed.
End Free.
