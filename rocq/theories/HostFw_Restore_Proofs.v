(** Migration for several firmware components, and restoring flash contents. *)
From Coq Require Import List NArith Lia Bool Arith Permutation ZifyBool ZifyNat ZifyN.
From Verif Require Import Base Flash_Base FlashUtil_Model FlashUtil_Proofs
  HostFw_Model HostFw_Spec HostFw_Walk_Proofs HostFw_Verify_Proofs HostFw_Compare_Proofs HostFw_Flash_Proofs.
Import ListNotations.
Local Open Scope N_scope.

Lemma covered_dec : forall l x, covered l x \/ ~ covered l x.
Proof.
  induction l as [|r l IH]; intros x; [right; intros (q & [] & _)|].
  destruct (IH x) as [(q & Hq & C)|N]; [left; exists q; split; [now right|auto]|].
  destruct (N.le_gt_cases (start r) x); [destruct (N.lt_ge_cases x (start r + len r))|].
  - left. exists r. split; [now left|unfold inside; auto].
  - right. intros (q & [<-|Hq] & C); [unfold inside in C; lia|apply N; exists q; auto].
  - right. intros (q & [<-|Hq] & C); [unfold inside in C; lia|apply N; exists q; auto].
Qed.

Section Restore.
Variable rfail : N -> bool.
Variable efail : N -> bool.
Variable wres : N -> option nat.
Variable blk page : N.
Hypothesis HB : 0 < blk.
Hypothesis HP : 0 < page.

Lemma migrate_each_spec : forall src, bytes_img src -> forall dests m fail srcws m' o,
  Forall good dests -> ForallOrdPairs (apart blk) dests -> fail = HfOk \/ diff fail ->
  migrate_each rfail efail wres blk page m fail dests src srcws = (m', o) ->
  (forall x, (forall d, In d dests -> ~ touched blk d x) -> m' x = m x) /\
  (o = Some HfOk \/ (exists r, o = Some r /\ diff r) \/ exists e, o = Some (HfFlash e)) /\
  (o = Some HfOk -> fail = HfOk /\ forall d, In d dests -> forall x, covered d x -> m' x = src x) /\
  (forall r, o = Some r -> diff r -> forall d, In d dests ->
     (forall x, covered d x -> m' x = src x) \/ (forall x, covered d x -> m' x = 255)).
Proof.
  intros src BS. induction dests as [|d t IH]; intros m fail srcws m' o G A FD H; cbn [migrate_each] in H.
  - injection H as <- <-. splits.
    + auto.
    + destruct FD as [->|D]; [auto|right; left; eauto].
    + intros Q. split; [congruence|intros d []].
    + intros r _ _ d [].
  - inversion G as [|? ? GD GT]; subst. inversion A as [|? ? AD AT]; subst. rewrite Forall_forall in AD.
    set (s1 := match srcws with Some (s :: _) => Some s | _ => None end) in H.
    set (ss := match srcws with Some (_ :: r) => Some r | o => o end) in H.
    destruct (migrate rfail efail wres blk page m d src s1) as [m1 r1] eqn:E.
    pose proof (migrate_spec rfail efail wres blk page HB HP m d src s1 m1 r1 GD BS E) as (M1 & M2 & M3 & M4 & _).
    assert (KEEP: forall m2 o2, migrate_each rfail efail wres blk page m1 HfOk t src ss = (m2, o2) \/
       (exists fl, diff fl /\ migrate_each rfail efail wres blk page m1 fl t src ss = (m2, o2)) ->
       forall x, covered d x -> m2 x = m1 x).
    { intros m2 o2 Q x C.
      assert (T: forall d', In d' t -> ~ touched blk d' x).
      { intros d' Hd T. apply (AD d' Hd x). split; [now apply covered_touched|auto]. }
      destruct Q as [Q|(fl & D & Q)]; eapply IH in Q; auto; apply (proj1 Q); auto. }
    assert (FR: forall x, (forall d', In d' (d :: t) -> ~ touched blk d' x) -> m1 x = m x).
    { intros x N. apply M1. apply N. now left. }
    destruct M2 as [->|[(r & -> & D)|(e & ->)]].
    + assert (KEEP2: forall x, covered d x -> m' x = m1 x).
      { apply (KEEP m' o). destruct FD as [->|FD]; [left; auto|right; exists fail; auto]. }
      pose proof (IH _ _ _ _ _ GT AT FD H) as (I1 & I2 & I3 & I4). splits; auto.
      * intros x N. rewrite I1; [auto|]. intros d' Hd. apply N. now right.
      * intros Q. destruct (I3 Q) as (F & C). split; auto. intros d' [<-|Hd] x Hx; [|eauto].
        rewrite KEEP2 by auto. apply M3; auto.
      * intros r Q D d' [<-|Hd]; [|eauto]. left. intros x Hx. rewrite KEEP2 by auto. apply M3; auto.
    + assert (H': migrate_each rfail efail wres blk page m1 r t src ss = (m', o)).
      { destruct D as [->|[->| ->]]; exact H. }
      assert (KEEP2: forall x, covered d x -> m' x = m1 x).
      { apply (KEEP m' o). right. eauto. }
      pose proof (IH _ _ _ _ _ GT AT (or_intror D) H') as (I1 & I2 & I3 & I4). splits; auto.
      * intros x N. rewrite I1; [auto|]. intros d' Hd. apply N. now right.
      * intros Q. destruct (I3 Q) as (F & _). exfalso. rewrite F in D. destruct D as [D|[D|D]]; discriminate.
      * intros r' Q D' d' [<-|Hd]; [|eauto]. right. intros x Hx. rewrite KEEP2 by auto. eapply M4; eauto.
        now apply covered_touched.
    + assert (m' = m1 /\ o = Some (HfFlash e)) as (-> & ->) by (split; congruence).
      splits; auto; try discriminate; [right; right; eauto|].
      intros r Q D. injection Q as <-. destruct D as [D|[D|D]]; discriminate.
Qed.

(** Restoring the read/write regions. *)
Lemma restore_rw_concat : forall src ws m,
  restore_rw_multiple rfail efail wres blk page m src ws = restore_rw rfail efail wres blk page m src (concat ws).
Proof. clear HB HP.
  intros src ws. induction ws as [|w t IH]; intros m; cbn [restore_rw_multiple concat]; [reflexivity|].
  revert m. induction w as [|[r prop] w IHw]; intros m; cbn [restore_rw app]; [apply IH|].
  destruct (match prop with
            | RwErase => erase_verify rfail efail blk m (start r) (len r)
            | RwRestore => match src with Some s => copy_ext rfail efail wres blk page true true m s (start r) (len r) | None => (m, HfOk) end
            | _ => (m, HfOk) end) as [m1 e]. destruct e; try reflexivity. apply IHw.
Qed.

Lemma restore_rw_spec : forall src, (forall s, src = Some s -> bytes_img s) -> forall ws m m' o,
  ForallOrdPairs (fun a b => apart blk [fst a] [fst b]) ws ->
  restore_rw rfail efail wres blk page m src ws = (m', o) ->
  (forall x, ~ touched blk (map fst ws) x -> m' x = m x) /\
  (o = HfOk \/ exists e, o = HfFlash e) /\
  (o = HfOk -> forall r prop, In (r, prop) ws -> forall x, inside r x -> m' x = wanted prop src m x).
Proof.
  intros src BS. induction ws as [|[p prop] t IH]; intros m m' o A H; cbn [restore_rw] in H.
  - injection H as <- <-. splits; auto. intros _ r pr [].
  - inversion A as [|? ? AD AT]; subst. rewrite Forall_forall in AD.
    destruct (match prop with
              | RwErase => erase_verify rfail efail blk m (start p) (len p)
              | RwRestore => match src with Some s => copy_ext rfail efail wres blk page true true m s (start p) (len p) | None => (m, HfOk) end
              | _ => (m, HfOk) end) as [m1 e] eqn:E.
    assert (S: (forall x, ~ touches blk p x -> m1 x = m x) /\ (e = HfOk \/ exists f, e = HfFlash f) /\
               (e = HfOk -> forall x, inside p x -> m1 x = wanted prop src m x)).
    { destruct prop.
      - injection E as <- <-. splits; auto.
      - destruct src as [s|]; [|injection E as <- <-; splits; auto].
        apply copy_ext_ok in E; auto. destruct E as (E1 & _ & E3 & E4). splits; auto.
        intros x N. apply E1; auto. intros C. apply N. now apply touches_inside.
      - apply erase_verify_ok in E; auto. destruct E as (E1 & _ & E3 & E4). splits; auto.
        intros Q x Hx. apply E3; auto. now apply touches_inside.
      - injection E as <- <-. splits; auto. }
    destruct S as (S1 & S2 & S3). cbn [map fst].
    assert (T0: forall x, ~ touched blk (p :: map fst t) x -> ~ touches blk p x).
    { intros x N T. apply N. exists p. split; [now left|auto]. }
    destruct S2 as [->|(f & ->)].
    + apply IH in H; auto. destruct H as (H1 & H2 & H3). splits; auto.
      * intros x N. rewrite H1; [auto|]. intros (q & Hq & T). apply N. exists q. split; [now right|auto].
      * intros Q r pr [EQ|Hr] x Hx.
        -- injection EQ as -> ->. rewrite H1; [apply S3; auto|].
           intros (q & Hq & T). apply in_map_iff in Hq. destruct Hq as ([q' pq] & <- & Hq).
           apply (AD _ Hq x). cbn [fst]. split; [exists r; split; [now left|now apply touches_inside]|].
           exists q'. split; [now left|exact T].
        -- rewrite (H3 Q r pr Hr x Hx).
           assert (EQ: m1 x = m x).
           { apply S1. intros T. apply (AD _ Hr x). cbn [fst].
             split; [exists p; split; [now left|auto]|exists r; split; [now left|now apply touches_inside]]. }
           unfold wanted. destruct pr; auto; destruct src; auto.
    + injection H as <- <-. splits; auto; [right; eauto|discriminate].
Qed.

(** Restoring the whole device. *)
Lemma erase_walk_spec : forall writable fsize, good writable -> fsize < 2 ^ 32 ->
  (forall r, In r writable -> start r + len r <= fsize) ->
  forall f m last m' o, last <= fsize ->
  (forall r, In r writable -> start r < last -> start r + len r <= last) ->
  erase_read_only efail blk f m last fsize writable = (m', o) ->
  (forall x, m' x = m x \/ m' x = 255) /\
  (forall x, (forall y, read_only fsize writable y -> y / blk <> x / blk) -> m' x = m x) /\
  (o = None -> visit f (fun a => find_next a writable) last = None) /\
  (o = Some HfOk -> forall x, last <= x -> read_only fsize writable x -> m' x = 255) /\
  (o = None \/ o = Some HfOk \/ exists e, o = Some (HfFlash e)).
Proof. clear HP.
  intros w fsize G FS IN. pose proof (good_disjoint w G) as (_ & D). destruct G as (P & _). rewrite Forall_forall in P.
  assert (GAP: forall last e, (forall r, In r w -> start r < last -> start r + len r <= last) ->
     (forall r, In r w -> last <= start r -> e <= start r) -> forall y, last <= y < e -> ~ covered w y).
  { intros last e B1 B2 y Hy (r & Hr & I1). unfold inside in I1.
    destruct (N.lt_ge_cases (start r) last); [specialize (B1 r Hr ltac:(auto))|specialize (B2 r Hr ltac:(auto))]; lia. }
  assert (LAST: forall m last m' o, last <= fsize -> (forall r, In r w -> start r < last -> start r + len r <= last) ->
    (forall r, In r w -> start r < last) ->
    (let '(m', r) := erase efail blk m last (sub32 fsize last) in (m', Some r)) = (m', o) ->
    (forall x, m' x = m x \/ m' x = 255) /\
    (forall x, (forall y, read_only fsize w y -> y / blk <> x / blk) -> m' x = m x) /\
    (o = None -> False) /\
    (o = Some HfOk -> forall x, last <= x -> read_only fsize w x -> m' x = 255) /\
    (o = None \/ o = Some HfOk \/ exists e, o = Some (HfFlash e))).
  { intros m last m' o L B N H. rewrite sub32_le in H by lia.
    destruct (erase efail blk m last (fsize - last)) as [m1 r] eqn:E. injection H as <- <-.
    apply erase_ok in E; auto. destruct E as (E1 & E2 & E3 & E4). splits; auto.
    - intros x H. apply E1. intros y Hy. apply H. split; [lia|].
      apply (GAP last fsize); auto; [|lia]. intros r0 Hr Hl. specialize (N r0 Hr). lia.
    - discriminate.
    - intros Q x Lx (R1 & _). injection Q as Q. apply (E3 Q x x); auto. lia.
    - destruct E4 as [->|(e & ->)]; [auto|right; right; eauto]. }
  induction f as [|f IH]; intros m last m' o L B H; cbn [erase_read_only visit] in *;
    pose proof (find_next_finds w last) as FN; destruct (find_next last w) as [p|].
  - injection H as <- <-. splits; auto. discriminate.
  - destruct (LAST _ _ _ _ L B FN H) as (A1 & A2 & A3 & A4 & A5). splits; auto. intros Q. destruct (A3 Q).
  - destruct FN as (I1 & I2 & I3). pose proof (P p I1) as PP. pose proof PP as (PL & PE). pose proof (IN p I1).
    rewrite sub32_le in H by lia.
    destruct (erase efail blk m last (start p - last)) as [m1 e] eqn:E.
    apply erase_ok in E; auto. destruct E as (E1 & E2 & E3 & E4).
    assert (F1: forall x, (forall y, read_only fsize w y -> y / blk <> x / blk) -> m1 x = m x).
    { intros x N. apply E1. intros y Hy. apply N. split; [lia|]. apply (GAP last (start p)); auto. lia. }
    destruct E4 as [->|(e' & ->)].
    + apply IH in H.
      * destruct H as (H1 & H2 & H3 & H4 & H5). splits; auto.
        -- intros x. destruct (H1 x) as [->| ->]; auto.
        -- intros x N. rewrite H2 by auto. auto.
        -- intros Q. now rewrite (H3 Q).
        -- intros Q x Lx RO. destruct (N.lt_ge_cases x (start p)).
           ++ assert (m1 x = 255) by (apply (E3 eq_refl x x); auto; lia).
              destruct (H1 x) as [->| ->]; auto.
           ++ apply H4; auto. rewrite past_proper by auto. destruct RO as (_ & N).
              destruct (N.le_gt_cases (start p + len p) x); auto. exfalso. apply N. exists p. split; auto.
              unfold inside. lia.
      * rewrite past_proper by auto. lia.
      * rewrite past_proper by auto. intros r Hr Hs. destruct (N.lt_ge_cases (start r) last); [specialize (B r Hr ltac:(auto)); lia|].
        destruct (region_dec p r) as [<-|Ne]; [lia|].
        pose proof (disjoint_order p r PP (P r Hr) (D p r I1 Hr Ne) (I3 r Hr ltac:(auto))). lia.
    + injection H as <- <-. splits; auto; try discriminate. right. right. eauto.
  - destruct (LAST _ _ _ _ L B FN H) as (A1 & A2 & A3 & A4 & A5). splits; auto. intros Q. destruct (A3 Q).
Qed.

Lemma copy_regions_spec : forall src, bytes_img src -> forall rs m m' o,
  ForallOrdPairs disjoint rs -> (forall x, covered rs x -> m x = 255) ->
  copy_regions rfail efail wres blk page m src rs = (m', o) ->
  (forall x, ~ covered rs x -> m' x = m x) /\
  (o = HfOk -> forall x, covered rs x -> m' x = src x) /\
  (o = HfOk \/ exists e, o = HfFlash e).
Proof.
  intros src BS. induction rs as [|p t IH]; intros m m' o D BL H; cbn [copy_regions] in H.
  - injection H as <- <-. splits; auto. intros _ x (q & [] & _).
  - inversion D as [|? ? DX DT]; subst. rewrite Forall_forall in DX.
    destruct (copy_ext rfail efail wres blk page false false m src (start p) (len p)) as [m1 e] eqn:E.
    apply copy_ext_ok in E; auto. destruct E as (E1 & _ & E3 & E4).
    assert (NP: forall x, ~ covered (p :: t) x -> ~ inside p x /\ ~ covered t x).
    { intros x N. split; [intros C; apply N; exists p; split; [now left|auto]|].
      intros (q & Hq & C). apply N. exists q. split; [now right|auto]. }
    destruct E4 as [->|(f & ->)].
    + apply IH in H; auto.
      * destruct H as (H1 & H2 & H3). splits; auto.
        -- intros x N. destruct (NP x N). rewrite H1 by auto. apply E1; auto.
        -- intros Q x (q & [<-|Hq] & C); [|apply H2; auto; exists q; auto].
           rewrite H1; [|intros (q & Hq & C2); apply (DX q Hq x); auto].
           apply E3; auto. right. right. intros y Hy. apply BL. exists p. split; [now left|auto].
      * intros x (q & Hq & C). rewrite E1; [apply BL; exists q; split; [now right|auto]| |auto].
        intros C2. apply (DX q Hq x). auto.
    + injection H as <- <-. splits; auto; [|discriminate|right; eauto].
      intros x N. apply E1; auto. apply NP; auto.
Qed.

Lemma FOP_app : forall (A : Type) (R : A -> A -> Prop) a b, ForallOrdPairs R (a ++ b) ->
  ForallOrdPairs R a /\ ForallOrdPairs R b /\ forall x y, In x a -> In y b -> R x y.
Proof. clear.
  intros A R a b. induction a as [|x a IH]; cbn [app]; intros H.
  - splits; auto; [constructor|intros x y []].
  - inversion H as [|? ? HX HT]; subst. destruct (IH HT) as (I1 & I2 & I3). rewrite Forall_app in HX. destruct HX as (X1 & X2).
    rewrite Forall_forall in X2. splits; auto; [constructor; auto|]. intros u v [<-|Hu] Hv; auto.
Qed.

Lemma restore_device_spec : forall m src fsize il writable m' o,
  good (concat (image_regions il) ++ writable) -> fsize < 2 ^ 32 -> bytes_img src ->
  (forall r, In r (concat (image_regions il) ++ writable) -> start r + len r <= fsize) ->
  restore_device rfail efail wres blk page m src fsize il writable = (m', o) ->
  o <> None /\
  (o = Some HfOk -> forall x,
     (covered (concat (image_regions il)) x -> m' x = src x) /\
     (read_only fsize writable x -> ~ covered (concat (image_regions il)) x -> m' x = 255)) /\
  (forall x, ~ covered (concat (image_regions il)) x ->
     (forall y, read_only fsize writable y -> y / blk <> x / blk) -> m' x = m x).
Proof.
  intros m src fsize il w m' o G FS BS IN H. destruct G as (P & D). rewrite Forall_app in P. destruct P as (PI & PW).
  apply FOP_app in D. destruct D as (DI & DW & DD). unfold restore_device in H.
  destruct (erase_read_only efail blk (length w) m 0 fsize w) as [m1 e] eqn:E.
  pose proof (erase_walk_spec w fsize (conj PW DW) FS (fun r Hr => IN r (in_or_app _ _ _ (or_intror Hr)))
    _ _ _ _ _ (N.le_0_l _) (fun r Hr Hl => ltac:(lia)) E) as (E1 & E2 & E3 & E4 & E5).
  pose proof (visit_good (fun a => find_next a w) w (find_next_finds w) (conj PW DW)) as (l & V & _).
  destruct E5 as [->|[->|(f & ->)]].
  - exfalso. specialize (E3 eq_refl). congruence.
  - destruct (copy_regions rfail efail wres blk page m1 src (concat (image_regions il))) as [m2 r] eqn:C.
    assert (m2 = m' /\ o = Some r) as (-> & ->) by (split; congruence).
    assert (RO: forall x, covered (concat (image_regions il)) x -> read_only fsize w x).
    { intros x (q & Hq & I1). split.
      - pose proof (IN q (in_or_app _ _ _ (or_introl Hq))). unfold inside in I1. lia.
      - intros (s & Hs & I2). apply (DD q s Hq Hs x). auto. }
    apply copy_regions_spec in C; auto.
    + destruct C as (C1 & C2 & C3). splits; [discriminate| |].
      * intros Q x. injection Q as ->. split; auto. intros R N. rewrite C1 by auto. apply (E4 eq_refl x); auto. lia.
      * intros x N N2. rewrite C1 by auto. auto.
    + intros x Hx. apply (E4 eq_refl x); [lia|auto].
  - assert (m' = m1 /\ o = Some (HfFlash f)) as (-> & ->) by (split; congruence).
    splits; [discriminate|discriminate|]. intros x _ N. auto.
Qed.
End Restore.
