(** Allocation and freeing keep the heap tiled by linked blocks. *)
From Coq Require Import List NArith Bool Arith Lia Permutation.
From Coq Require Import ZifyBool ZifyNat ZifyN.
From Verif Require Import Base Heap_Model Heap_Spec Heap_Links_Proofs Heap_Proofs.
Import ListNotations.
Local Open Scope N_scope.

Lemma filter_length_le {A} (f : A -> bool) l : (length (filter f l) <= length l)%nat.
Proof. induction l as [|a l IH]; cbn; [lia|]. destruct (f a); cbn; lia. Qed.

Definition unfit (m : mem) (size asz x : N) : Prop := sz m x <> size /\ sz m x < asz.

Lemma find_spec m size asz : forall F p n, seg m p F 0 -> ~ In 0 F -> (length F < n)%nat ->
  (find n m (first 0 F) size asz = NotFound /\ (forall x, In x F -> unfit m size asz x)) \/
  (exists F1 r F2, F = F1 ++ r :: F2 /\ (forall x, In x F1 -> unfit m size asz x) /\
     ((find n m (first 0 F) size asz = Exact r /\ sz m r = size) \/
      (find n m (first 0 F) size asz = Trim r /\ sz m r <> size /\ asz <= sz m r))).
Proof.
  induction F as [|a F IH]; intros p n HS H0 Hn; (destruct n as [|n]; [cbn [length] in Hn; lia|]); cbn [first find].
  - left. split; [reflexivity|easy].
  - assert (a <> 0) by (intros ->; apply H0; now left). rewrite (proj2 (N.eqb_neq a 0)) by assumption.
    destruct (N.eqb_spec (sz m a) size) as [E|E].
    { right. exists [], a, F. split; [reflexivity|]. split; [easy|]. now left. }
    destruct (N.leb_spec asz (sz m a)) as [L|L].
    { right. exists [], a, F. split; [reflexivity|]. split; [easy|]. right. auto. }
    destruct HS as (P & Q & S). rewrite Q.
    destruct (IH a n S) as [(E1 & E2)|(F1 & r & F2 & -> & U & R)].
    + intros Hi. apply H0. now right.
    + cbn [length] in Hn. lia.
    + left. split; [exact E1|]. intros x [<-|Hx]; [now split|auto].
    + right. exists (a :: F1), r, F2. split; [reflexivity|]. split; [|exact R].
      intros x [<-|Hx]; [now split|auto].
Qed.

Lemma walk_spec m fb : forall F1 p r F2 n, seg m p (r :: F1 ++ F2) 0 -> ~ In 0 (r :: F1 ++ F2) ->
  (forall x, In x F1 -> x < fb) -> (forall x, In x F2 -> fb < x) -> (length F1 < n)%nat ->
  walk n m r fb = Some (last F1 r).
Proof.
  induction F1 as [|a F1 IH]; intros p r F2 n HS H0 L1 L2 Hn; (destruct n as [|n]; [cbn [length] in Hn; lia|]); cbn [walk].
  - cbn [app] in HS. destruct HS as (_ & Q & _). rewrite Q. destruct F2 as [|c F2]; cbn [first last].
    + reflexivity.
    + specialize (L2 c (or_introl eq_refl)). rewrite (proj2 (N.ltb_ge c fb)) by lia. now rewrite andb_false_r.
  - cbn [app] in HS. destruct HS as (_ & Q & S). cbn [first] in Q. rewrite Q.
    assert (a <> 0) by (intros ->; apply H0; right; now left).
    rewrite (proj2 (N.eqb_neq a 0)) by assumption. rewrite (proj2 (N.ltb_lt a fb)) by (apply L1; now left). cbn [negb andb].
    rewrite (IH r a F2 n S).
    + destruct F1 as [|b F1]; [reflexivity|]. cbn [last]. f_equal. clear.
      revert b. induction F1 as [|c F1 IH]; intros b; [reflexivity|]. cbn [last]. apply IH.
    + intros Hi. apply H0. now right.
    + intros x Hx. apply L1. now right.
    + exact L2.
    + cbn [length] in Hn. lia.
Qed.

Section Inv.
  Variable W HL base len : N.
  Hypothesis HL0 : 0 < HL.
  Hypothesis B0 : 0 < base.

  Record Inv (h : heap) (l : list blk) (A : list N) : Prop := {
    i_tiles : tiles HL base l (base + len);
    i_ctrl : forall b, In b l -> mg (hm h) (ba b) = MAGIC /\ sz (hm h) (ba b) = bs b;
    i_free : seg (hm h) 0 (frees l) 0;
    i_fl : fl h = first 0 (frees l);
    i_used : Permutation A (used l);
    i_alloc : seg (hm h) 0 A 0;
    i_al : al h = first 0 A;
    i_sparse : sparse l
  }.

  Definition same_at (m m' : mem) (x : N) : Prop :=
    mg m' x = mg m x /\ sz m' x = sz m x /\ nx m' x = nx m x /\ pv m' x = pv m x.

  Lemma inv_nodup h l A : Inv h l A -> NoDup (map ba l) /\ NoDup (frees l) /\ NoDup A /\ (forall x, In x (frees l) -> ~ In x A) /\
    ~ In 0 (map ba l) /\ ~ In 0 (frees l) /\ ~ In 0 A.
  Proof.
    intros I. pose proof (tiles_nodup HL HL0 _ _ _ (i_tiles _ _ _ I)) as HN.
    assert (Z : ~ In 0 (map ba l)).
    { rewrite in_map_iff. intros (b & E & Hb). destruct (tiles_in HL HL0 _ _ _ _ (i_tiles _ _ _ I) Hb). lia. }
    assert (sub1 : forall x, In x (frees l) -> In x (map ba l)).
    { intros x Hx. apply frees_in in Hx. destruct Hx as (b & Hb & <- & _). now apply in_map. }
    assert (sub2 : forall x, In x A -> In x (map ba l)).
    { intros x Hx. apply (Permutation_in _ (i_used _ _ _ I)) in Hx. apply used_in in Hx. destruct Hx as (b & Hb & <- & _). now apply in_map. }
    repeat split; auto.
    - now apply nodup_map_filter.
    - eapply Permutation_NoDup; [apply Permutation_sym, (i_used _ _ _ I)|]. now apply nodup_map_filter.
    - intros x Hx Ha. apply (Permutation_in _ (i_used _ _ _ I)) in Ha.
      apply frees_in in Hx. apply used_in in Ha. destruct Hx as (b & Hb & Eb & Fb), Ha as (c & Hc & Ec & Fc).
      assert (b = c) by (apply (tiles_same HL HL0 l base (base + len)); auto; [apply (i_tiles _ _ _ I)|congruence]). congruence.
  Qed.

  Lemma round4_spec n : n + 3 + HL < W ->
    n <= round4 W n < n + 4 /\ (round4 W n + HL) mod W = round4 W n + HL /\ round4 W n mod 4 = 0.
  Proof.
    intros H. unfold round4. rewrite (N.mod_small (n + 3)) by lia.
    pose proof (N.div_mod' (n + 3) 4). pose proof (N.mod_lt (n + 3) 4).
    assert (E : n <= (n + 3) / 4 * 4 < n + 4) by lia. split; [exact E|]. split.
    - apply N.mod_small. lia.
    - rewrite N.mod_mul; lia.
  Qed.

  Lemma first_frees_cons l1 r s l2 : frees (l1 ++ Blk r s true :: l2) = frees l1 ++ r :: frees l2.
  Proof. now rewrite frees_app. Qed.

  Lemma used_swap l1 r s l2 : used (l1 ++ Blk r s true :: l2) = used l1 ++ used l2.
  Proof. now rewrite used_app. Qed.

  Lemma headfree_false_sparse r s l : sparse l -> sparse (Blk r s false :: l).
  Proof. destruct l; cbn; auto. Qed.

  Lemma allocate_spec fuel h l A n :
    Inv h l A -> n + 3 + HL < W -> (length l < fuel)%nat ->
    (allocate W HL fuel h n = Some (h, 0) /\
       (forall b, In b l -> bf b = true -> bs b <> round4 W n /\ bs b < round4 W n + HL)) \/
    (exists h' l' r, allocate W HL fuel h n = Some (h', r + HL) /\
       bytes h' = bytes h /\ Inv h' l' (r :: A) /\ In (Blk r (round4 W n) false) l' /\ ~ In r A /\
       (forall b, bf b = false -> In b l' <-> (b = Blk r (round4 W n) false \/ In b l)) /\
       (forall x, ~ In x (map ba l') -> same_at (hm h) (hm h') x)).
  Proof.
    intros I Hn Hf. destruct (round4_spec n Hn) as ((R1 & R2) & R3 & R4).
    destruct (inv_nodup _ _ _ I) as (N1 & N2 & N3 & N4 & Z1 & Z2 & Z3).
    unfold allocate. cbv zeta. rewrite R3. set (size := round4 W n) in *. rewrite (i_fl _ _ _ I).
    destruct (find_spec (hm h) size (size + HL) (frees l) 0 fuel (i_free _ _ _ I) Z2) as [(E & U)|(F1 & r & F2 & EF & U & R)].
    { unfold frees. rewrite map_length. pose proof (filter_length_le bf l). lia. }
    { left. rewrite E. split; [reflexivity|]. intros b Hb Hfb. destruct (i_ctrl _ _ _ I b Hb) as [_ <-]. apply U. apply frees_in. eauto. }
    right. destruct (frees_split _ _ _ _ EF) as (l1 & s & l2 & El & E1 & E2).
    pose proof (i_tiles _ _ _ I) as HT. rewrite El in HT. apply tiles_app in HT. destruct HT as (m0 & T1 & T2). cbn [tiles ba bs] in T2. destruct T2 as (<- & T2).
    assert (Hr : In (Blk r s true) l) by (rewrite El; apply in_or_app; right; now left).
    destruct (i_ctrl _ _ _ I _ Hr) as [Mr Sr]. cbn [ba bs] in Mr, Sr.
    pose proof (i_sparse _ _ _ I) as SP. rewrite El in SP. apply sparse_app in SP. destruct SP as (SP1 & SP2 & SP3). cbn [headfree bf] in SP3.
    assert (SP2' : sparse l2 /\ headfree l2 = false).
    { destruct l2 as [|c l2]; [cbn; auto|]. destruct SP2 as [[H|H] H2]; [discriminate|]. auto. }
    assert (RA : ~ In r A) by (apply N4; apply frees_in; exists (Blk r s true); auto).
    assert (DJ : forall b, In b l1 \/ In b l2 -> ba b <> r).
    { intros b Hb E. assert (b = Blk r s true) as ->.
      { apply (tiles_same HL HL0 l base (base + len)); auto; [apply I|]. rewrite El. apply in_or_app. destruct Hb; [left|right; right]; auto. }
      rewrite El, map_app in N1. cbn [map ba] in N1. nodup N1. destruct N1 as (_ & (Q1 & _) & Q2). destruct Hb as [Hb|Hb].
      - apply (Q2 r); [|now left]. change r with (ba (Blk r s true)). now apply in_map.
      - apply Q1. change r with (ba (Blk r s true)). now apply in_map. }
    destruct R as [(E & Es)|(E & Es & Le)]; rewrite E.
    - (* exact fit *)
      assert (Hs : s = size) by congruence. rewrite Hs in *. clear Hs.
      destruct (unlink (hm h) (first 0 (frees l)) r) as [m1 fl1] eqn:EU.
      pose proof (i_free _ _ _ I) as SF. rewrite EF in SF, N2, Z2.
      destruct (unlink_spec _ _ _ _ _ _ _ N2 Z2 SF (f_equal (first 0) EF) EU) as (V1 & V2 & V3 & V4 & V5).
      assert (SA : seg m1 0 A 0).
      { eapply seg_ext; [|exact (i_alloc _ _ _ I)]. intros x Hx. apply V5. intros Hi. apply (N4 x); [|exact Hx]. rewrite EF.
        apply in_app_iff in Hi. apply in_app_iff. destruct Hi; [left|right; right]; auto. }
      assert (NA : NoDup (r :: A)) by (constructor; auto).
      destruct (push_allocated_spec m1 A r size NA Z3 SA) as (P1 & P2 & P3 & P4).
      rewrite <- (i_al _ _ _ I) in *. set (m2 := push_allocated m1 (al h) r size) in *.
      exists (Heap m2 (bytes h) fl1 r), (l1 ++ Blk r size false :: l2), r.
      split; [reflexivity|]. split; [reflexivity|].
      assert (FR : frees (l1 ++ Blk r size false :: l2) = F1 ++ F2) by (rewrite frees_app; subst F1 F2; reflexivity).
      split; [constructor; cbn [hm fl al]|split; [|split; [exact RA|split]]].
      + apply tiles_app. exists r. split; [exact T1|]. cbn [tiles ba bs]. auto.
      + intros b Hb. rewrite P2, P3, V3, V4. apply in_app_iff in Hb. destruct Hb as [Hb|[<-|Hb]].
        * rewrite !put_other by auto. apply (i_ctrl _ _ _ I). rewrite El. apply in_or_app. now left.
        * cbn [ba bs]. now rewrite !put_same.
        * rewrite !put_other by auto. apply (i_ctrl _ _ _ I). rewrite El. apply in_or_app. right. now right.
      + rewrite FR. eapply seg_ext; [|exact V1]. intros x Hx. apply P4. intros [Hi|Hi].
        * subst x. nodup N2. apply in_app_iff in Hx. destruct N2 as (_ & (Q1 & _) & Q2). destruct Hx as [Hx|Hx]; [apply (Q2 r Hx); now left|auto].
        * apply (N4 x); [|exact Hi]. rewrite EF. apply in_app_iff in Hx. apply in_app_iff. destruct Hx; [left|right; right]; auto.
      + rewrite FR. exact V2.
      + rewrite used_app. cbn. change (map ba (filter (fun b => negb (bf b)) l2)) with (used l2).
        apply Permutation_cons_app. rewrite <- used_app. pose proof (i_used _ _ _ I) as PU. rewrite El, used_swap, <- used_app in PU. exact PU.
      + exact P1.
      + reflexivity.
      + apply sparse_app. split; [exact SP1|]. split; [apply headfree_false_sparse; tauto|right; reflexivity].
      + apply in_or_app. right. now left.
      + intros b Hbf. rewrite El, !in_app_iff. cbn [In]. split.
        * intros [H|[H|H]]; auto.
        * intros [H|[H|[H|H]]]; auto. subst b. discriminate.
      + intros x Hx. rewrite map_app in Hx. cbn [map ba] in Hx. rewrite in_app_iff in Hx. cbn [In] in Hx.
        assert (xr : x <> r) by (intros ->; tauto). cbn [hm].
        assert (xA : ~ In x A).
        { intros Hi. apply (Permutation_in _ (i_used _ _ _ I)) in Hi. apply used_in in Hi. destruct Hi as (b & Hb & Eb & Fb).
          rewrite El in Hb. apply in_app_iff in Hb. destruct Hb as [Hb|[<-|Hb]]; [|discriminate|]; apply (in_map ba) in Hb; rewrite Eb in Hb; tauto. }
        assert (xF : ~ In x (F1 ++ F2)).
        { rewrite <- FR. intros Hi. apply frees_in in Hi. destruct Hi as (b & Hb & Eb & Fb). apply in_app_iff in Hb.
          destruct Hb as [Hb|[<-|Hb]]; [|discriminate|]; apply (in_map ba) in Hb; rewrite Eb in Hb; tauto. }
        unfold same_at. rewrite P2, P3, V3, V4, !put_other by assumption. destruct (V5 x xF) as (-> & ->) || destruct (V5 x xF) as (W1 & W2).
        destruct (P4 x) as (W3 & W4); [intros [Hi|Hi]; auto|]. rewrite W3, W4. destruct (V5 x xF). auto.
    - (* taken from the end of a larger block *)
      assert (size + HL <= s) by (rewrite <- Sr; exact Le).
      set (m1 := set_sz (hm h) r (sz (hm h) r - (size + HL))).
      assert (Es1 : sz m1 r = s - (size + HL)) by (unfold m1, set_sz; cbn [sz]; rewrite put_same, Sr; reflexivity).
      rewrite Es1. set (r' := r + HL + (s - (size + HL))).
      assert (SA : seg m1 0 A 0) by (eapply seg_ext; [|exact (i_alloc _ _ _ I)]; intros; unfold m1; auto).
      set (l' := l1 ++ Blk r (s - (size + HL)) true :: Blk r' size false :: l2).
      assert (T' : tiles HL base l' (base + len)).
      { apply tiles_app. exists r. split; [exact T1|]. cbn [tiles ba bs]. split; [reflexivity|]. split; [reflexivity|].
        replace (r + HL + (s - (size + HL)) + HL + size) with (r + HL + s) by lia. exact T2. }
      pose proof (tiles_nodup HL HL0 _ _ _ T') as N1'. unfold l' in N1'. rewrite map_app in N1'. cbn [map ba] in N1'.
      assert (DJ' : forall b, In b l -> ba b <> r').
      { intros b Hb Eb. rewrite El in Hb. nodup N1'. destruct N1' as (_ & (Q1 & Q2 & _) & Q3).
        apply in_app_iff in Hb. destruct Hb as [Hb|[<-|Hb]].
        - apply (in_map ba) in Hb. rewrite Eb in Hb. apply (Q3 _ Hb). right. now left.
        - cbn [ba] in Eb. apply Q1. now left.
        - apply (in_map ba) in Hb. rewrite Eb in Hb. auto. }
      assert (rA : ~ In r' A).
      { intros Hi. apply (Permutation_in _ (i_used _ _ _ I)) in Hi. apply used_in in Hi. destruct Hi as (b & Hb & Eb & Fb). exact (DJ' b Hb Eb). }
      assert (NA : NoDup (r' :: A)) by (constructor; auto).
      destruct (push_allocated_spec m1 A r' size NA Z3 SA) as (P1 & P2 & P3 & P4).
      rewrite <- (i_al _ _ _ I) in *. set (m2 := push_allocated m1 (al h) r' size) in *.
      assert (rr : r <> r') by (intros Er; apply (DJ' _ Hr); exact Er).
      assert (FR : frees l' = frees l) by (unfold l'; rewrite El, !frees_app; reflexivity).
      exists (Heap m2 (bytes h) (first 0 (frees l)) r'), l', r'.
      split; [reflexivity|]. split; [reflexivity|].
      split; [constructor; cbn [hm fl al]|split; [|split; [exact rA|split]]].
      + exact T'.
      + intros b Hb. rewrite P2, P3. unfold m1, set_sz. cbn [mg sz]. unfold l' in Hb. apply in_app_iff in Hb.
        destruct Hb as [Hb|[<-|[<-|Hb]]]; cbn [ba bs].
        * assert (In b l) by (rewrite El; apply in_or_app; now left). rewrite !put_other by auto. apply (i_ctrl _ _ _ I); auto.
        * rewrite !put_other by auto. rewrite put_same, Sr. auto.
        * now rewrite !put_same.
        * assert (In b l) by (rewrite El; apply in_or_app; right; now right). rewrite !put_other by auto. apply (i_ctrl _ _ _ I); auto.
      + rewrite FR. eapply seg_ext; [|exact (i_free _ _ _ I)]. intros x Hx.
        destruct (P4 x) as (W1 & W2); [|rewrite W1, W2; auto].
        intros [Hi|Hi]; [|exact (N4 x Hx Hi)]. subst x. apply frees_in in Hx. destruct Hx as (b & Hb & Eb & _). exact (DJ' b Hb Eb).
      + now rewrite FR.
      + unfold l'. rewrite used_app. cbn. change (map ba (filter (fun b => negb (bf b)) l2)) with (used l2).
        apply Permutation_cons_app. rewrite <- used_app. pose proof (i_used _ _ _ I) as PU. rewrite El, used_swap, <- used_app in PU. exact PU.
      + exact P1.
      + reflexivity.
      + unfold l'. apply sparse_app. split; [exact SP1|]. split; [|left; tauto || (destruct SP3 as [H1|H1]; [exact H1|discriminate])].
        cbn [sparse]. split; [right; reflexivity|]. apply (headfree_false_sparse r' size). tauto.
      + unfold l'. apply in_or_app. right. right. now left.
      + intros b Hbf. unfold l'. rewrite El, !in_app_iff. cbn [In]. split.
        * intros [H1|[H1|[H1|H1]]]; auto. subst b. discriminate.
        * intros [H1|[H1|[H1|H1]]]; auto. subst b. discriminate.
      + intros x Hx. unfold l' in Hx. rewrite map_app in Hx. cbn [map ba] in Hx. rewrite in_app_iff in Hx. cbn [In] in Hx.
        assert (xr : x <> r) by (intros ->; tauto). assert (xr' : x <> r') by (intros ->; tauto). cbn [hm].
        assert (xA : ~ In x A).
        { intros Hi. apply (Permutation_in _ (i_used _ _ _ I)) in Hi. apply used_in in Hi. destruct Hi as (b & Hb & Eb & Fb).
          rewrite El in Hb. apply in_app_iff in Hb. destruct Hb as [Hb|[<-|Hb]]; [|discriminate|]; apply (in_map ba) in Hb; rewrite Eb in Hb; tauto. }
        unfold same_at. rewrite P2, P3. unfold m1, set_sz. cbn [mg sz]. rewrite !put_other by assumption.
        destruct (P4 x) as (W3 & W4); [intros [Hi|Hi]; auto|]. rewrite W3, W4. auto.
  Qed.
End Inv.
