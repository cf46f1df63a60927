(** What holds for every client of the heap. *)
From Coq Require Import List NArith Bool Arith Lia Permutation Sorted.
From Coq Require Import ZifyBool ZifyNat ZifyN.
From Verif Require Import Base Heap_Model Heap_Spec Heap_Links_Proofs Heap_Proofs Heap_Inv_Proofs Heap_Free_Proofs.
Import ListNotations.
Local Open Scope N_scope.

Section Client.
  Variable W HL base len : N.
  Hypothesis HL0 : 0 < HL.
  Hypothesis B0 : 0 < base.
  Notation Inv := (Inv HL base len).

  (** The live blocks are the allocated blocks of the layout. *)
  Record held (l : list blk) (lv : list block) : Prop := {
    h_nodup : NoDup (map fst lv);
    h_live : forall a n, In (a, n) lv -> exists b, In b l /\ bf b = false /\ a = ba b + HL /\ n <= bs b;
    h_used : forall b, In b l -> bf b = false -> exists n, In (ba b + HL, n) lv
  }.

  Lemma inv_length h l A : Inv h l A -> (length l < fuel_of len)%nat.
  Proof. intros I. pose proof (tiles_le HL HL0 _ _ _ (i_tiles _ _ _ _ _ _ I)). unfold fuel_of. nia. Qed.

  Lemma drop_in a l x n : In (x, n) (drop a l) <-> In (x, n) l /\ x <> a.
  Proof. unfold drop. rewrite filter_In. cbn [fst]. destruct (N.eqb_spec x a); cbn; intuition congruence. Qed.

  Lemma drop_nodup a l : NoDup (map fst l) -> NoDup (map fst (drop a l)).
  Proof.
    induction l as [|[x n] t IH]; intros H; [constructor|]. cbn [map fst] in H. apply NoDup_cons_iff in H. destruct H as [H1 H2].
    cbn [drop filter fst]. destruct (x =? a); cbn [negb]; [auto|]. cbn [map fst]. constructor; [|auto].
    rewrite in_map_iff in *. intros ([y k] & E & Hi). cbn [fst] in E. subst y. apply drop_in in Hi. apply H1. exists (x, k). tauto.
  Qed.

  Lemma inv_hm h h' l A : Inv h l A -> fl h' = fl h -> al h' = al h ->
    (forall x, In x (map ba l) -> same_at (hm h) (hm h') x) -> Inv h' l A.
  Proof.
    intros I Ef Ea Hs. destruct (inv_nodup HL base len HL0 B0 _ _ _ I) as (N1 & N2 & N3 & N4 & Z1 & Z2 & Z3).
    constructor.
    - apply I.
    - intros b Hb. destruct (Hs (ba b) (in_map ba _ _ Hb)) as (-> & -> & _ & _). now apply I.
    - eapply seg_ext; [|apply I]. intros x Hx. apply frees_in in Hx. destruct Hx as (b & Hb & <- & _).
      destruct (Hs (ba b) (in_map ba _ _ Hb)) as (_ & _ & -> & ->). auto.
    - rewrite Ef. apply I.
    - apply I.
    - eapply seg_ext; [|apply I]. intros x Hx. apply (Permutation_in _ (i_used _ _ _ _ _ _ I)), used_in in Hx. destruct Hx as (b & Hb & <- & _).
      destruct (Hs (ba b) (in_map ba _ _ Hb)) as (_ & _ & -> & ->). auto.
    - rewrite Ea. apply I.
    - apply I.
  Qed.

  Lemma header_apart h l A lv x a n : Inv h l A -> held l lv -> In x (map ba l) -> In (a, n) lv -> apart x HL a n.
  Proof.
    intros I Hh Hx Ha. apply in_map_iff in Hx. destruct Hx as (c & <- & Hc).
    destruct (h_live _ _ Hh a n Ha) as (b & Hb & Fb & -> & Hn).
    destruct (N.eq_dec (ba c) (ba b)) as [E|E]; [left; lia|].
    pose proof (tiles_apart HL HL0 _ _ _ _ _ (i_tiles _ _ _ _ _ _ I) Hc Hb E) as P. unfold apart in *. lia.
  Qed.

  Lemma gain_held h l A h' l' r n size lv :
    Inv h l A -> Inv h' l' (r :: A) -> held l lv -> n <= size -> ~ In r A -> In (Blk r size false) l' ->
    (forall b, bf b = false -> In b l' <-> (b = Blk r size false \/ In b l)) -> held l' ((r + HL, n) :: lv).
  Proof.
    intros I I' Hh Hn Hr Hin Hb. constructor.
    - cbn [map fst]. constructor; [|apply Hh]. rewrite in_map_iff. intros ([a k] & E & Hi). cbn [fst] in E. subst a.
      destruct (h_live _ _ Hh _ _ Hi) as (b & Hbl & Fb & E & _). apply Hr.
      apply (Permutation_in _ (Permutation_sym (i_used _ _ _ _ _ _ I))), used_in. exists b. repeat split; auto. lia.
    - intros a k [E|Hi].
      + injection E as <- <-. exists (Blk r size false). auto.
      + destruct (h_live _ _ Hh _ _ Hi) as (b & Hbl & Fb & E & Hk). exists b. repeat split; auto. apply Hb; auto.
    - intros b Hi Fb. apply Hb in Hi; [|exact Fb]. destruct Hi as [->|Hi]; [exists n; now left|].
      destruct (h_used _ _ Hh b Hi Fb) as (k & Hk). exists k. now right.
  Qed.

  Lemma drop_held l l' lv r s : tiles HL base l (base + len) -> In (Blk r s false) l -> held l lv ->
    (forall b, bf b = false -> In b l' <-> (In b l /\ b <> Blk r s false)) -> held l' (drop (r + HL) lv).
  Proof.
    intros T Hin Hh Hb. constructor.
    - apply drop_nodup, Hh.
    - intros a n Hi. apply drop_in in Hi. destruct Hi as [Hi Hn]. destruct (h_live _ _ Hh _ _ Hi) as (b & Hbl & Fb & E & Hk).
      exists b. repeat split; auto. apply Hb; auto. split; [exact Hbl|]. intros ->. cbn [ba] in E. congruence.
    - intros b Hi Fb. apply Hb in Hi; [|exact Fb]. destruct Hi as [Hi Hn]. destruct (h_used _ _ Hh b Hi Fb) as (k & Hk). exists k.
      apply drop_in. split; [exact Hk|]. intros E. apply Hn. apply (tiles_same HL HL0 l base (base + len)); auto. cbn [ba]. lia.
  Qed.

  (** One call, described in terms of layouts: everything the theorems need. *)
  Definition good (s : client) : Prop := exists l A, Inv (hp s) l A /\ held l (live s).

  Definition quiet (s s' : client) : Prop :=
    forall a n, In (a, n) (live s) -> In (a, n) (live s') ->
      (forall y, a <= y < a + n -> bytes (hp s') y = bytes (hp s) y) /\
      (forall x, ~ same_at (hm (hp s)) (hm (hp s')) x -> apart x HL a n).

  Lemma same_at_dec m m' x : same_at m m' x \/ ~ same_at m m' x.
  Proof.
    unfold same_at. destruct (N.eq_dec (mg m' x) (mg m x)), (N.eq_dec (sz m' x) (sz m x)), (N.eq_dec (nx m' x) (nx m x)), (N.eq_dec (pv m' x) (pv m x)); tauto.
  Qed.

  Lemma changed_in m m' l x : (forall x, ~ In x (map ba l) -> same_at m m' x) -> ~ same_at m m' x -> In x (map ba l).
  Proof. intros H Hn. destruct (in_dec N.eq_dec x (map ba l)); [assumption|exfalso; auto]. Qed.

  Lemma allocate_client h l A lv n :
    Inv h l A -> held l lv -> in_range W HL n ->
    (allocate W HL (fuel_of len) h n = Some (h, 0) /\
       (forall b, In b l -> bf b = true -> bs b <> round4 W n /\ bs b < round4 W n + HL)) \/
    (exists h' l' r, allocate W HL (fuel_of len) h n = Some (h', r + HL) /\ 0 < r /\ bytes h' = bytes h /\
       Inv h' l' (r :: A) /\ In (Blk r (round4 W n) false) l' /\ ~ In (r + HL) (map fst lv) /\
       held l' ((r + HL, n) :: lv) /\ (forall b, bf b = false -> In b l -> In b l') /\
       (forall x, ~ In x (map ba l') -> same_at (hm h) (hm h') x)).
  Proof.
    intros I Hh Hn. destruct (allocate_spec W HL base len HL0 B0 (fuel_of len) h l A n I Hn (inv_length _ _ _ I)) as [E|(h' & l' & r & E & Eb & I' & Hin & Hr & Hb & Hx)].
    - left. exact E.
    - right. exists h', l', r. split; [exact E|].
      destruct (tiles_in HL HL0 _ _ _ _ (i_tiles _ _ _ _ _ _ I') Hin) as [L1 L2]. cbn [ba] in L1.
      destruct (round4_spec W HL base HL0 B0 n Hn) as ((R1 & R2) & _).
      assert (Hh' : held l' ((r + HL, n) :: lv)) by (apply (gain_held h l A h' l' r n (round4 W n)); auto).
      split; [lia|]. split; [exact Eb|]. split; [exact I'|]. split; [exact Hin|]. split.
      { pose proof (h_nodup _ _ Hh') as ND. cbn [map fst] in ND. now apply NoDup_cons_iff in ND. }
      split; [exact Hh'|]. split; [|exact Hx]. intros b Fb Hi. apply Hb; auto.
  Qed.

  Lemma free_client h l A lv a k :
    Inv h l A -> held l lv -> In (a, k) lv ->
    exists h' l' A', free HL (fuel_of len) h a = Some h' /\ bytes h' = bytes h /\ Inv h' l' A' /\ held l' (drop a lv) /\
      (forall x, ~ In x (map ba l) -> same_at (hm h) (hm h') x).
  Proof.
    intros I Hh Ha. destruct (h_live _ _ Hh _ _ Ha) as ([r s f] & Hb & Fb & -> & Hk). cbn [bf ba bs] in *. subst f.
    destruct (free_spec HL base len HL0 B0 (fuel_of len) h l A r s I Hb (inv_length _ _ _ I)) as (h' & l' & A1 & A2 & E & Eb & EA & I' & Hm & Hx).
    exists h', l', (A1 ++ A2). split; [exact E|]. split; [exact Eb|]. split; [exact I'|]. split; [|exact Hx].
    apply (drop_held l l' lv r s); auto. apply I.
  Qed.

  Lemma bytes_apart l lv a n b k : held l lv -> tiles HL base l (base + len) -> In (a, n) lv -> In (b, k) lv -> a <> b -> apart a n b k.
  Proof.
    intros Hh T Ha Hb Hn. destruct (h_live _ _ Hh _ _ Ha) as (c & Hc & _ & -> & Hcn). destruct (h_live _ _ Hh _ _ Hb) as (d & Hd & _ & -> & Hdn).
    assert (E : ba c <> ba d) by lia. pose proof (tiles_apart HL HL0 _ _ _ _ _ T Hc Hd E) as P. unfold apart in *. lia.
  Qed.

  Lemma same_at_trans m1 m2 m3 x : same_at m1 m2 x -> same_at m2 m3 x -> same_at m1 m3 x.
  Proof. unfold same_at. intuition congruence. Qed.

  Lemma realloc_client h l A lv o k n :
    Inv h l A -> held l lv -> in_range W HL n -> In (o, k) lv ->
    (reallocate W HL (fuel_of len) h o n = Some (h, o) /\ 0 < o /\ held l ((o, n) :: drop o lv)) \/
    (reallocate W HL (fuel_of len) h o n = Some (h, 0) /\
       (forall b, In b l -> bf b = true -> bs b <> round4 W n /\ bs b < round4 W n + HL)) \/
    (exists h' a l1 l' A', reallocate W HL (fuel_of len) h o n = Some (h', a) /\ 0 < a /\ a <> o /\ ~ In a (map fst lv) /\
       Inv h' l' A' /\ held l' ((a, n) :: drop o lv) /\
       (forall i, i < n -> i < k -> bytes h' (a + i) = bytes h (o + i)) /\
       (forall y, ~ (a <= y < a + n) -> bytes h' y = bytes h y) /\
       tiles HL base l1 (base + len) /\ held l1 ((a, n) :: lv) /\
       (forall x, ~ In x (map ba l1) -> same_at (hm h) (hm h') x)).
  Proof.
    intros I Hh Hn Ho. destruct (h_live _ _ Hh _ _ Ho) as ([r s f] & Hb & Fb & Eo & Hk). cbn [bf ba bs] in *. subst f.
    destruct (tiles_in HL HL0 _ _ _ _ (i_tiles _ _ _ _ _ _ I) Hb) as [L1 L2]. cbn [ba] in L1.
    destruct (i_ctrl _ _ _ _ _ _ I _ Hb) as [_ Es]. cbn [ba bs] in Es.
    destruct (round4_spec W HL base HL0 B0 n Hn) as ((R1 & R2) & _).
    unfold reallocate. rewrite (proj2 (N.eqb_neq o 0)) by lia. replace (o - HL) with r by lia. rewrite Es. cbv zeta.
    destruct (N.eqb_spec s (round4 W n)) as [E|E].
    { left. split; [reflexivity|]. split; [lia|]. constructor.
      - cbn [map fst]. constructor; [|apply drop_nodup, Hh]. rewrite in_map_iff. intros ([x y] & Ex & Hi). cbn [fst] in Ex. subst x. apply drop_in in Hi. tauto.
      - intros a m [Em|Hi].
        + injection Em as <- <-. exists (Blk r s false). cbn [ba bs bf]. repeat split; auto. lia.
        + apply drop_in in Hi. apply (h_live _ _ Hh). tauto.
      - intros b Hi Fb. destruct (h_used _ _ Hh b Hi Fb) as (m & Hm). destruct (N.eq_dec (ba b + HL) o) as [Eq|Eq].
        + exists n. left. congruence.
        + exists m. right. apply drop_in. auto. }
    right. destruct (allocate_client h l A lv n I Hh Hn) as [(Ea & U)|(h1 & l1 & r1 & Ea & P1 & Eb & I1 & Hin & Nin & H1 & Hmono & Hx)].
    { left. rewrite Ea. cbn. split; [reflexivity|exact U]. }
    right. rewrite Ea. rewrite (proj2 (N.eqb_neq (r1 + HL) 0)) by lia.
    set (h2 := Heap (hm h1) (copy (bytes h1) (r1 + HL) o (N.min n s)) (fl h1) (al h1)).
    assert (I2 : Inv h2 l1 (r1 :: A)).
    { apply (inv_hm h1 h2); auto. intros x _. repeat split; reflexivity. }
    assert (Ho' : In (o, k) ((r1 + HL, n) :: lv)) by (now right).
    destruct (free_client h2 l1 (r1 :: A) _ o k I2 H1 Ho') as (h3 & l3 & A3 & E3 & Eb3 & I3 & H3 & Hx3).
    rewrite E3. exists h3, (r1 + HL), l1, l3, A3. split; [reflexivity|]. split; [lia|].
    assert (ne : r1 + HL <> o) by (intros Eq; apply Nin; apply in_map_iff; exists (o, k); auto).
    split; [exact ne|]. split; [exact Nin|]. split; [exact I3|]. split.
    { cbn [drop filter fst] in H3. rewrite (proj2 (N.eqb_neq _ _) ne) in H3. exact H3. }
    assert (Hf : In (Blk r s false) l1) by (apply Hmono; auto).
    assert (AP : apart (r1 + HL) n o s).
    { assert (Er : r1 <> r) by lia. pose proof (tiles_apart HL HL0 _ _ _ _ _ (i_tiles _ _ _ _ _ _ I1) Hin Hf Er) as P. cbn [ba bs] in P. unfold apart in *. lia. }
    split; [|split; [|split; [|split]]].
    - intros i Hi Hik. rewrite Eb3. cbn [h2 bytes]. unfold copy. rewrite (proj2 (N.leb_le _ _)) by lia. rewrite (proj2 (N.ltb_lt _ _)) by lia. cbn [andb].
      rewrite Eb. f_equal. lia.
    - intros y Hy. rewrite Eb3. cbn [h2 bytes]. unfold copy. destruct (N.leb_spec (r1 + HL) y), (N.ltb_spec y (r1 + HL + N.min n s)); cbn [andb]; rewrite ?Eb; auto. lia.
    - apply I1.
    - exact H1.
    - intros x Hi. apply (same_at_trans _ (hm h1)); [now apply Hx|]. exact (Hx3 x Hi).
  Qed.

  Lemma init_good h0 h : heap_init HL h0 base len = Some h -> good (Client h []).
  Proof.
    unfold heap_init. destruct (N.eqb_spec base 0), (N.leb_spec len HL); cbn [orb]; try discriminate. intros E.
    exists [Blk base (len - HL) true], []. assert (Eh : h = Heap (set_pv (set_nx (set_sz (set_mg (hm h0) base MAGIC) base (len - HL)) base 0) base 0) (bytes h0) base 0) by congruence.
    subst h. cbn [hp live]. split.
    - constructor; cbn [hm fl al set_pv set_nx set_sz set_mg].
      + cbn [tiles ba bs]. split; [reflexivity|lia].
      + intros b [<-|[]]. cbn [mg sz ba bs]. split; apply put_same.
      + cbn. now rewrite !put_same.
      + reflexivity.
      + constructor.
      + exact Logic.I.
      + reflexivity.
      + exact Logic.I.
    - constructor; [constructor|easy|]. intros b [<-|[]] Fb. discriminate.
  Qed.

  Lemma quiet_layout s s' l : tiles HL base l (base + len) ->
    (forall a n, In (a, n) (live s) -> In (a, n) (live s') -> exists b, In b l /\ a = ba b + HL /\ n <= bs b) ->
    (forall a n, In (a, n) (live s) -> In (a, n) (live s') -> forall y, a <= y < a + n -> bytes (hp s') y = bytes (hp s) y) ->
    (forall x, ~ In x (map ba l) -> same_at (hm (hp s)) (hm (hp s')) x) -> quiet s s'.
  Proof.
    intros T Hl Hb Hx a n H1 H2. split; [now apply Hb|]. intros x Hn. apply (changed_in _ _ _ _ Hx) in Hn.
    apply in_map_iff in Hn. destruct Hn as (c & <- & Hc). destruct (Hl a n H1 H2) as (b & Hbl & -> & Hbn).
    destruct (N.eq_dec (ba c) (ba b)) as [E|E]; [left; lia|].
    pose proof (tiles_apart HL HL0 _ _ _ _ _ T Hc Hbl E) as P. unfold apart in *. lia.
  Qed.

  Lemma held_find l lv a n : held l lv -> In (a, n) lv -> exists b, In b l /\ a = ba b + HL /\ n <= bs b.
  Proof. intros Hh Hi. destruct (h_live _ _ Hh _ _ Hi) as (b & H1 & _ & H2 & H3). eauto. Qed.

  Lemma step_good s c s' : good s -> step W HL len s c s' -> good s' /\ (c <> Write -> quiet s s').
  Proof.
    intros (l & A & I & Hh) Hs. destruct Hs; cbn [hp live] in I, Hh.
    - (* malloc *)
      destruct (allocate_client h l A l0 n I Hh) as [(E & U)|(h1 & l1 & r1 & E & P1 & Eb & I1 & Hin & Nin & H1 & Hm & Hx)]; auto; rewrite E in H0.
      + assert (a = 0) by congruence. assert (h' = h) by congruence. subst a h'. cbn [gain N.eqb]. split; [exists l, A; auto|].
        intros _. apply (quiet_layout _ _ l); cbn [hp live]; auto. { apply I. } { intros. eapply held_find; eauto. } intros x _. now repeat split.
      + assert (a = r1 + HL) by congruence. assert (h' = h1) by congruence. subst a h'. unfold gain. rewrite (proj2 (N.eqb_neq (r1 + HL) 0)) by lia.
        split; [exists l1, (r1 :: A); auto|]. intros _. apply (quiet_layout _ _ l1); cbn [hp live]; auto. { apply I1. } { intros. eapply held_find; eauto. }
        intros. now rewrite Eb.
    - (* calloc *)
      unfold allocate_zeroize in H0. cbv zeta in H0. rewrite (N.mod_small (k * n)) in H0 by (unfold in_range in H; lia).
      destruct (allocate_client h l A l0 (k * n) I Hh H) as [(E & U)|(h1 & l1 & r1 & E & P1 & Eb & I1 & Hin & Nin & H1 & Hm & Hx)]; auto; rewrite E in H0.
      + cbn [N.eqb] in H0. assert (a = 0) by congruence. assert (h' = h) by congruence. subst a h'. cbn [gain N.eqb]. split; [exists l, A; auto|].
        intros _. apply (quiet_layout _ _ l); cbn [hp live]; auto. { apply I. } { intros. eapply held_find; eauto. } intros x _. now repeat split.
      + rewrite (proj2 (N.eqb_neq (r1 + HL) 0)) in H0 by lia. assert (a = r1 + HL) by congruence. subst a.
        set (h2 := Heap (hm h1) (fill (bytes h1) (r1 + HL) (k * n) 0) (fl h1) (al h1)) in *. assert (h' = h2) by congruence. subst h'.
        unfold gain. rewrite (proj2 (N.eqb_neq (r1 + HL) 0)) by lia.
        assert (I2 : Inv h2 l1 (r1 :: A)) by (apply (inv_hm h1 h2); auto; intros x _; repeat split; reflexivity).
        split; [exists l1, (r1 :: A); auto|]. intros _. apply (quiet_layout _ _ l1); cbn [hp live]; auto. { apply I1. } { intros. eapply held_find; eauto. }
        intros a m Ha Ha' y Hy. cbn [h2 bytes]. unfold fill. rewrite <- Eb.
        assert (ne : a <> r1 + HL) by (intros ->; apply Nin; apply in_map_iff; exists (r1 + HL, m); auto).
        pose proof (bytes_apart l1 _ a m (r1 + HL) (k * n) H1 (i_tiles _ _ _ _ _ _ I1) (or_intror Ha) (or_introl eq_refl) ne) as AP.
        destruct (N.leb_spec (r1 + HL) y), (N.ltb_spec y (r1 + HL + k * n)); cbn [andb]; auto. unfold apart in AP. lia.
    - (* realloc *)
      destruct (realloc_client h l A l0 o k n I Hh H H0) as [(E & P & Hl)|[(E & U)|(h1 & a1 & l1 & l2 & A2 & E & P & Ne & Nin & I2 & H2 & B1 & B2 & T1 & Hl1 & Hx)]]; rewrite E in H1.
      + assert (a = o) by congruence. assert (h' = h) by congruence. subst a h'. rewrite (proj2 (N.eqb_neq o 0)) by lia.
        split; [exists l, A; auto|]. intros _. apply (quiet_layout _ _ l); cbn [hp live]; auto. { apply I. } { intros. eapply held_find; [exact Hh|assumption]. } intros x _. now repeat split.
      + assert (a = 0) by congruence. assert (h' = h) by congruence. subst a h'. cbn [N.eqb]. split; [exists l, A; auto|].
        intros _. apply (quiet_layout _ _ l); cbn [hp live]; auto. { apply I. } { intros. eapply held_find; eauto. } intros x _. now repeat split.
      + assert (a = a1) by congruence. assert (h' = h1) by congruence. subst a h'. rewrite (proj2 (N.eqb_neq a1 0)) by lia.
        split; [exists l2, A2; auto|]. intros _. apply (quiet_layout _ _ l1); cbn [hp live]; auto. { intros. eapply held_find; [exact Hl1|now right]. }
        intros a m Ha Ha' y Hy. apply B2. intros Hy'.
        assert (ne : a <> a1) by (intros ->; apply Nin; apply in_map_iff; exists (a1, m); auto).
        pose proof (bytes_apart l1 _ a m a1 n Hl1 T1 (or_intror Ha) (or_introl eq_refl) ne) as AP. unfold apart in AP. lia.
    - (* free *)
      destruct (free_client h l A l0 a k I Hh H) as (h1 & l1 & A1 & E & Eb & I1 & H1 & Hx). assert (h' = h1) by congruence. subst h'.
      split; [exists l1, A1; auto|]. intros _. apply (quiet_layout _ _ l); cbn [hp live]; auto. { apply I. } { intros. eapply held_find; eauto. }
      intros. now rewrite Eb.
    - (* a write by the client *)
      destruct H as (Ef & Ea & Hm & Hb). split; [|congruence]. exists l, A. split; [|exact Hh]. cbn [hp]. apply (inv_hm h h'); auto.
      intros x Hx. destruct (Hm x) as (M1 & M2 & M3 & M4).
      + intros (a & n & Hi & Hn & Hap). apply Hap. pose proof (header_apart h l A l0 x a n I Hh Hx Hi) as Q. unfold apart in *. lia.
      + repeat split; auto.
  Qed.

  Lemma reached_good h0 s : reached W HL base len h0 s -> good s.
  Proof. intros R. induction R as [h E|s c s' R IH Hs]; [now apply (init_good h0)|]. eapply step_good; eauto. Qed.

  Lemma seg_chain m l : forall p, ~ In 0 l -> seg m p l 0 -> chain m (first 0 l) l.
  Proof.
    induction l as [|a t IH]; intros p H0 HS; [reflexivity|]. destruct HS as (_ & Q & S). cbn [first chain]. split; [reflexivity|].
    split; [intros ->; apply H0; now left|]. rewrite Q. apply (IH a); auto. intros Hi. apply H0. now right.
  Qed.

  Lemma chain_unique m l1 : forall l2 p, chain m p l1 -> chain m p l2 -> l1 = l2.
  Proof.
    induction l1 as [|a t IH]; intros [|b u] p H1 H2; cbn [chain] in *; auto.
    - destruct H2 as (-> & H & _). congruence.
    - destruct H1 as (-> & H & _). congruence.
    - destruct H1 as (-> & _ & H1), H2 as (-> & _ & H2). f_equal. eapply IH; eauto.
  Qed.

  Lemma total_tiles m l : forall a e, tiles HL a l e -> (forall b, In b l -> sz m (ba b) = bs b) ->
    a + (total (fun x => sz m x + HL) (frees l) + total (fun x => sz m x + HL) (used l)) = e.
  Proof.
    induction l as [|b t IH]; intros a e T Hs; [cbn in *; lia|]. destruct T as [E T].
    assert (IH' := IH _ _ T (fun c Hc => Hs c (or_intror Hc))). pose proof (Hs b (or_introl eq_refl)) as Eb.
    unfold total, frees, used in *. cbn [filter]. destruct (bf b); cbn [negb map fold_right] in *; rewrite Eb; lia.
  Qed.

  Lemma total_perm f l1 l2 : Permutation l1 l2 -> total f l1 = total f l2.
  Proof. induction 1; cbn [total fold_right] in *; unfold total in *; lia. Qed.

  Lemma tally_spec m : forall l p n, chain m p l -> (length l < n)%nat ->
    tally HL n m p = Some (N.of_nat (length l), total (sz m) l, total (fun x => sz m x + HL) l).
  Proof.
    induction l as [|a t IH]; intros p n HC Hn; (destruct n as [|n]; [cbn [length] in Hn; lia|]); cbn [tally chain] in *.
    - subst p. reflexivity.
    - destruct HC as (-> & H0 & HC). rewrite (proj2 (N.eqb_neq a 0)) by assumption. rewrite (IH _ n HC) by (cbn [length] in Hn; lia).
      cbn [length total fold_right]. unfold total. f_equal. f_equal; [f_equal|]; lia.
  Qed.

  Lemma frees_sorted l : forall a e, tiles HL a l e -> StronglySorted N.lt (frees l).
  Proof.
    induction l as [|b t IH]; intros a e T; [constructor|]. destruct T as [E T]. unfold frees. cbn [filter]. fold (frees t).
    destruct (bf b); [|exact (IH _ _ T)]. cbn [map]. constructor; [exact (IH _ _ T)|]. apply Forall_forall. intros x Hx.
    apply frees_in in Hx. destruct Hx as (c & Hc & <- & _). destruct (tiles_in HL HL0 _ _ _ _ T Hc). lia.
  Qed.

  Lemma sparse_not_adjacent l : forall a e b c, tiles HL a l e -> sparse l -> In b l -> In c l -> bf b = true -> bf c = true ->
    ba b + HL + bs b <> ba c.
  Proof.
    induction l as [|d t IH]; intros a e b c T S Hb Hc Fb Fc E; [easy|]. destruct T as [Ed T].
    assert (St : sparse t) by (destruct t; [exact Logic.I|apply S]).
    destruct Hb as [->|Hb], Hc as [->|Hc].
    - lia.
    - destruct t as [|d t]; [easy|]. destruct S as [[S|S] _]; [congruence|]. cbn [tiles] in T. destruct T as [Ed2 T].
      destruct Hc as [->|Hc]; [congruence|]. destruct (tiles_in HL HL0 _ _ _ _ T Hc). lia.
    - destruct (tiles_in HL HL0 _ _ _ _ T Hb). lia.
    - exact (IH _ _ b c T St Hb Hc Fb Fc E).
  Qed.
End Client.
