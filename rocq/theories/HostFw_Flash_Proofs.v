(** Migrating and restoring flash contents. *)
From Coq Require Import List NArith Lia Bool Arith Permutation ZifyBool ZifyNat ZifyN.
From Verif Require Import Base Flash_Base FlashUtil_Model FlashUtil_Proofs
  HostFw_Model HostFw_Spec HostFw_Walk_Proofs HostFw_Verify_Proofs HostFw_Compare_Proofs.
Import ListNotations.
Local Open Scope N_scope.

Section Flash.
Variable rfail : N -> bool.
Variable efail : N -> bool.
Variable wres : N -> option nat.
Variable blk page : N.
Hypothesis HB : 0 < blk.
Hypothesis HP : 0 < page.

Lemma status_ok : forall r, flash_status r = HfOk -> r = FuOk.
Proof. intros []; cbn; congruence. Qed.

Lemma touches_inside : forall r x, inside r x -> touches blk r x.
Proof. clear. intros r x H. exists x. auto. Qed.

Lemma erase_ok : forall m a l m' r, erase efail blk m a l = (m', r) ->
  (forall x, (forall y, a <= y < a + l -> y / blk <> x / blk) -> m' x = m x) /\
  (forall x, m' x = m x \/ m' x = 255) /\
  (r = HfOk -> forall x y, a <= y < a + l -> y / blk = x / blk -> m' x = 255) /\
  (r = HfOk \/ exists e, r = HfFlash e).
Proof. clear rfail wres page HP.
  intros m a l m' r H. unfold erase in H.
  pose proof (erase_region_spec efail blk m a (N.to_nat l) HB) as E.
  destruct (erase_region efail blk m a (N.to_nat l)) as [m1 e]. injection H as <- <-.
  rewrite N2Nat.id in E. destruct E as (E1 & E2 & E3 & E4). splits; auto.
  - intros R. apply E4. now apply status_ok.
  - destruct E3 as [->| ->]; [left; reflexivity|right; eexists; reflexivity].
Qed.

Lemma erase_verify_ok : forall m p m' r, erase_verify rfail efail blk m (start p) (len p) = (m', r) ->
  (forall x, ~ touches blk p x -> m' x = m x) /\
  (forall x, m' x = m x \/ m' x = 255) /\
  (r = HfOk -> forall x, touches blk p x -> m' x = 255) /\
  (r = HfOk \/ exists e, r = HfFlash e).
Proof. clear wres page HP.
  intros m p m' r H. unfold erase_verify, erase_and_verify in H.
  pose proof (erase_region_spec efail blk m (start p) (N.to_nat (len p)) HB) as E.
  destruct (erase_region efail blk m (start p) (N.to_nat (len p))) as [m1 e].
  rewrite N2Nat.id in E. destruct E as (E1 & E2 & E3 & E4).
  assert (M: m' = m1) by (destruct e; injection H as <- <-; reflexivity). subst m1.
  splits; auto.
  - intros x N. apply E1. intros y Hy Q. apply N. exists y. auto.
  - intros R x (y & Hy & Q). destruct e; try (injection H as H; subst r; discriminate).
    eapply E4; eauto.
  - destruct e; injection H as H; subst r; try (right; eexists; reflexivity).
    destruct (blank_check rfail m' (start p) (N.to_nat (len p))); [left|right..]; try reflexivity; eexists; reflexivity.
Qed.

Lemma copy_ext_ok : forall er ver m src p m' r, bytes_img src ->
  copy_ext rfail efail wres blk page er ver m src (start p) (len p) = (m', r) ->
  (forall x, ~ inside p x -> er = false \/ ~ touches blk p x -> m' x = m x) /\
  (forall x, ~ inside p x -> m' x = m x \/ m' x = 255) /\
  (r = HfOk -> er = true \/ ver = true \/ (forall x, inside p x -> m x = 255) -> forall x, inside p x -> m' x = src x) /\
  (r = HfOk \/ exists e, r = HfFlash e).
Proof.
  intros er ver m src p m' r BS H. unfold copy_ext, copy_region in H.
  assert (NL: N.of_nat (N.to_nat (len p)) = len p) by lia.
  destruct (N.to_nat (len p)) as [|k] eqn:EL.
  { injection H as <- <-. splits; auto. intros _ _ x Hx. unfold inside in Hx. lia. }
  assert (C: forall m1, (forall x, ~ inside p x -> er = false \/ ~ touches blk p x -> m1 x = m x) ->
    (forall x, ~ inside p x -> m1 x = m x \/ m1 x = 255) ->
    (er = true -> forall x, inside p x -> m1 x = 255) -> (er = false -> m1 = m) ->
    (let '(m', r) := if MAX_COPY_BLOCK <? page then (m1, FuPageSize)
                     else copy_to_blank rfail wres (Some src) m1 (start p) (start p) (S k) page ver in (m', flash_status r)) = (m', r) ->
    (forall x, ~ inside p x -> er = false \/ ~ touches blk p x -> m' x = m x) /\
    (forall x, ~ inside p x -> m' x = m x \/ m' x = 255) /\
    (r = HfOk -> er = true \/ ver = true \/ (forall x, inside p x -> m x = 255) -> forall x, inside p x -> m' x = src x) /\
    (r = HfOk \/ exists e, r = HfFlash e)).
  { intros m1 M1 M2 M3 M4 Q. destruct (MAX_COPY_BLOCK <? page).
    { injection Q as <- <-. splits; auto; [discriminate|right; eexists; reflexivity]. }
    pose proof (copy_to_blank_spec rfail wres (Some src) m1 (start p) (start p) (S k) page ver HP BS) as CB.
    destruct (copy_to_blank rfail wres (Some src) m1 (start p) (start p) (S k) page ver) as [m2 e].
    destruct (CB ltac:(discriminate)) as (C1 & C2). rewrite NL in C1, C2. cbn [source] in C2. injection Q as <- <-.
    assert (C1': forall x, ~ inside p x -> m2 x = m1 x) by (intros x Hx; apply C1; exact Hx).
    splits.
    - intros x Hx Hd. rewrite C1' by auto. auto.
    - intros x Hx. rewrite C1' by auto. auto.
    - intros R V x Hx. unfold inside in Hx. apply status_ok in R.
      replace x with (start p + (x - start p)) by lia. apply C2; auto; [|lia].
      destruct V as [V|[V|V]]; auto; right; intros y Hy; [apply M3; auto|].
      destruct er; [apply M3; auto|]. rewrite M4 by auto. auto.
    - destruct e; [left; reflexivity|right; eexists; reflexivity..]. }
  destruct er; [|apply (C m); auto; try discriminate].
  unfold erase_and_verify in H. pose proof (erase_region_spec efail blk m (start p) (S k) HB) as E.
  destruct (erase_region efail blk m (start p) (S k)) as [m1 e].
  rewrite NL in E. destruct E as (E1 & E2 & E3 & E4).
  assert (F1: forall x, ~ inside p x -> true = false \/ ~ touches blk p x -> m1 x = m x).
  { intros x Hx [D|D]; [discriminate|]. apply E1. intros y Hy Q. apply D. exists y. auto. }
  destruct e; try (injection H as <- <-; splits; auto; [discriminate|right; eexists; reflexivity]).
  destruct (blank_check rfail m1 (start p) (S k));
    try (injection H as <- <-; splits; auto; [discriminate|right; eexists; reflexivity]).
  apply (C m1); auto; [|discriminate]. intros _ x Hx. apply (E4 eq_refl x x); auto.
Qed.

(** Migration: the erase pass. *)
Lemma migrate_erase_frame : forall f m last fail dest srcw m' o,
  migrate_erase rfail efail blk f m last fail dest srcw = (m', o) ->
  (forall x, ~ touched blk dest x -> m' x = m x) /\ (forall x, m' x = m x \/ m' x = 255).
Proof. clear wres page HP.
  induction f as [|f IH]; intros m last fail dest srcw m' o H; cbn [migrate_erase] in H;
    pose proof (find_next_finds dest last) as FN; destruct (find_next last dest) as [p|];
    try (injection H as <- <-; split; auto; fail).
  destruct (erase_verify rfail efail blk m (start p) (len p)) as [m1 r] eqn:E.
  apply erase_verify_ok in E. destruct E as (E1 & E2 & _ & _). destruct FN as (I1 & _).
  assert (T1: forall x, ~ touched blk dest x -> m1 x = m x).
  { intros x N. apply E1. intros T. apply N. exists p. auto. }
  destruct r; try (injection H as <- <-; split; auto; fail).
  apply IH in H. destruct H as (H1 & H2). split.
  - intros x N. rewrite H1 by auto. auto.
  - intros x. destruct (H2 x) as [->| ->]; auto.
Qed.

Lemma migrate_erase_done : forall f m last fail dest srcw m' r,
  migrate_erase rfail efail blk f m last fail dest srcw = (m', Some (inr r)) ->
  exists l, visit f (fun a => find_next a dest) last = Some l /\
    forall x, touched blk l x -> m' x = 255.
Proof. clear wres page HP.
  induction f as [|f IH]; intros m last fail dest srcw m' r H; cbn [migrate_erase visit] in *;
    destruct (find_next last dest) as [p|]; try discriminate;
    try (exists []; split; auto; intros x (q & [] & _)).
  destruct (erase_verify rfail efail blk m (start p) (len p)) as [m1 e] eqn:E.
  apply erase_verify_ok in E. destruct E as (E1 & E2 & E3 & _).
  destruct e; try discriminate. pose proof (migrate_erase_frame _ _ _ _ _ _ _ _ H) as (_ & M).
  apply IH in H. destruct H as (l & -> & H2). exists (p :: l). split; auto.
  intros x (q & [<-|Hq] & T); [|apply H2; exists q; auto].
  destruct (M x) as [->| ->]; auto.
Qed.

Lemma migrate_erase_none : forall f m last fail dest srcw m',
  migrate_erase rfail efail blk f m last fail dest srcw = (m', None) -> visit f (fun a => find_next a dest) last = None.
Proof. clear wres page HP HB.
  induction f as [|f IH]; intros m last fail dest srcw m' H; cbn [migrate_erase visit] in *;
    destruct (find_next last dest) as [p|]; try discriminate; auto.
  destruct (erase_verify rfail efail blk m (start p) (len p)) as [m1 e] eqn:E.
  destruct e; try discriminate. now rewrite (IH _ _ _ _ _ _ H).
Qed.

Lemma migrate_check_fail : forall fail last p srcw, fail <> HfOk -> migrate_check fail last p srcw = fail.
Proof. intros []; intros; cbn [migrate_check]; congruence || (destruct srcw; congruence). Qed.

Lemma migrate_check_cases : forall fail last p srcw, fail = HfOk \/ diff fail ->
  migrate_check fail last p srcw = HfOk \/ diff (migrate_check fail last p srcw).
Proof.
  intros fail last p srcw [->|D].
  - cbn [migrate_check]. destruct srcw; auto. destruct (find_next last l); auto.
    destruct (negb _); [right; right; left; auto|]. destruct (negb _); [right; right; right; auto|auto].
  - rewrite migrate_check_fail; auto. destruct D as [->|[->| ->]]; discriminate.
Qed.

Lemma migrate_erase_result : forall f m last fail dest srcw m' o, fail = HfOk \/ diff fail ->
  migrate_erase rfail efail blk f m last fail dest srcw = (m', Some o) ->
  match o with inl e => exists x, e = HfFlash x | inr r => r = HfOk \/ diff r end.
Proof. clear wres page HP.
  induction f as [|f IH]; intros m last fail dest srcw m' o D H; cbn [migrate_erase] in H;
    destruct (find_next last dest) as [p|]; try discriminate; try (injection H as <- <-; exact D).
  destruct (erase_verify rfail efail blk m (start p) (len p)) as [m1 e] eqn:E.
  apply erase_verify_ok in E. destruct E as (_ & _ & _ & [->|(x & ->)]).
  - eapply IH; [|exact H]. now apply migrate_check_cases.
  - injection H as <- <-. eauto.
Qed.

Lemma migrate_erase_fail : forall f m last fail dest srcw m' r, fail <> HfOk ->
  migrate_erase rfail efail blk f m last fail dest srcw = (m', Some (inr r)) -> r = fail.
Proof. clear wres page HP HB.
  induction f as [|f IH]; intros m last fail dest srcw m' r D H; cbn [migrate_erase] in H;
    destruct (find_next last dest) as [p|]; try discriminate; try (injection H as <- <-; reflexivity).
  destruct (erase_verify rfail efail blk m (start p) (len p)) as [m1 e].
  destruct e; try discriminate. rewrite migrate_check_fail in H by auto. eauto.
Qed.

Lemma above_step : forall s last p, good s -> finds last s (Some p) ->
  length (above last s) = S (length (above (past p) s)).
Proof. clear.
  intros s last p G (I1 & I2 & I3). pose proof (good_disjoint s G) as (ND & D). destruct G as (P & _).
  rewrite Forall_forall in P. pose proof (P p I1) as PP. pose proof PP as (PL & PE).
  rewrite past_proper by auto. change (S (length (above (start p + len p) s))) with (length (p :: above (start p + len p) s)).
  apply Permutation_length. apply NoDup_Permutation.
  - now apply NoDup_filter.
  - constructor; [|now apply NoDup_filter]. unfold above. rewrite filter_In. lia.
  - intros x. unfold above. cbn [In]. rewrite !filter_In. split.
    + intros (X1 & X2). destruct (region_dec p x) as [E|Ne]; [auto|right]. split; auto.
      pose proof (disjoint_order p x PP (P x X1) (D p x I1 X1 Ne) (I3 x X1 ltac:(lia))). lia.
    + intros [<-|(X1 & X2)]; split; auto; lia.
Qed.

Lemma migrate_erase_same : forall s, good s -> forall f m last dest m' l,
  migrate_erase rfail efail blk f m last HfOk dest (Some s) = (m', Some (inr HfOk)) ->
  visit f (fun a => find_next a dest) last = Some l -> length l = length (above last s) -> incl l s.
Proof. clear wres page HP HB.
  intros s G. induction f as [|f IH]; intros m last dest m' l H V L; cbn [migrate_erase visit] in *;
    destruct (find_next last dest) as [p|]; try discriminate; try (injection V as <-; intros ? []).
  destruct (visit f (fun a => find_next a dest) (past p)) as [t|] eqn:VT; [|discriminate]. injection V as <-.
  destruct (erase_verify rfail efail blk m (start p) (len p)) as [m1 e].
  destruct e; try discriminate. cbn [migrate_check] in H.
  pose proof (find_next_finds s last) as FS. destruct (find_next last s) as [q|].
  - destruct (N.eqb_spec (start p) (start q)) as [E1|]; cbn [negb] in H; [|apply migrate_erase_fail in H; discriminate].
    destruct (N.eqb_spec (len p) (len q)) as [E2|]; cbn [negb] in H; [|apply migrate_erase_fail in H; discriminate].
    assert (p = q) by (apply region_eq; auto). subst q.
    pose proof (above_step s last p G FS) as A. cbn [length] in L.
    intros x [<-|Hx]; [apply FS|]. eapply IH; eauto. lia.
  - cbn [finds] in FS. unfold above in L. destruct (filter (fun r => last <=? start r) s) as [|y ys] eqn:Q; [cbn [length] in L; lia|].
    assert (In y (filter (fun r => last <=? start r) s)) by (rewrite Q; now left).
    apply filter_In in H0. destruct H0 as (Y1 & Y2). specialize (FS y Y1). lia.
Qed.

Lemma migrate_erase_perm : forall dest s, good dest -> Permutation dest s -> forall f m last m' r,
  migrate_erase rfail efail blk f m last HfOk dest (Some s) = (m', Some (inr r)) -> r = HfOk.
Proof. clear wres page HP HB.
  intros dest s G P. induction f as [|f IH]; intros m last m' r H; cbn [migrate_erase] in H;
    destruct (find_next last dest) as [p|] eqn:FN; try discriminate; try (injection H as <- <-; reflexivity).
  destruct (erase_verify rfail efail blk m (start p) (len p)) as [m1 e].
  destruct e; try discriminate. cbn [migrate_check] in H.
  assert (E: find_next last s = Some p).
  { rewrite <- FN. apply (finds_unique last dest); auto; [|apply find_next_finds].
    apply finds_perm with (a := s); [now apply Permutation_sym|apply find_next_finds]. }
  rewrite E, !N.eqb_refl in H. cbn [negb] in H. eauto.
Qed.

(** The copy pass. *)
Lemma migrate_copy_spec : forall src dest, bytes_img src -> forall f m last m' o,
  migrate_copy rfail efail wres blk page f m src last dest = (m', o) ->
  (forall x, ~ covered dest x -> m' x = m x) /\
  (o = None -> visit f (fun a => find_next a dest) last = None) /\
  (o = Some HfOk -> exists l, visit f (fun a => find_next a dest) last = Some l /\
     forall x, covered l x -> m' x = src x) /\
  (o = None \/ o = Some HfOk \/ exists e, o = Some (HfFlash e)).
Proof.
  intros src dest BS.
  assert (K: forall f m last m' o, migrate_copy rfail efail wres blk page f m src last dest = (m', o) ->
  (forall x, ~ covered dest x -> m' x = m x) /\
  (o = None -> visit f (fun a => find_next a dest) last = None) /\
  (o = Some HfOk -> exists l, visit f (fun a => find_next a dest) last = Some l /\
     (forall x, ~ covered l x -> m' x = m x) /\ forall x, covered l x -> m' x = src x) /\
  (o = None \/ o = Some HfOk \/ exists e, o = Some (HfFlash e))).
  { induction f as [|f IH]; intros m last m' o H; cbn [migrate_copy visit] in *;
      pose proof (find_next_finds dest last) as FN; destruct (find_next last dest) as [p|].
    - injection H as <- <-. splits; auto. discriminate.
    - injection H as <- <-. splits; auto; try discriminate. intros _. exists []. splits; auto. intros x (q & [] & _).
    - destruct (copy_ext rfail efail wres blk page false true m src (start p) (len p)) as [m1 e] eqn:E.
      apply copy_ext_ok in E; auto. destruct E as (E1 & _ & E3 & E4). destruct FN as (I1 & _).
      assert (O1: forall x, ~ covered dest x -> m1 x = m x).
      { intros x N. apply E1; auto. intros I2. apply N. exists p. auto. }
      destruct E4 as [->|(e' & ->)].
      + apply IH in H. destruct H as (H1 & H2 & H3 & H4). splits; auto.
        * intros x N. rewrite H1 by auto. auto.
        * intros Q. now rewrite (H2 Q).
        * intros Q. destruct (H3 Q) as (l & -> & L1 & L2). exists (p :: l). splits; auto.
          -- intros x N. rewrite L1; [apply E1; auto|]; intros C; apply N.
             ++ exists p. split; [now left|auto].
             ++ destruct C as (q & Hq & C). exists q. split; [now right|auto].
          -- intros x (q & [<-|Hq] & C).
             ++ assert (DEC: forall l, covered l x \/ ~ covered l x).
                { clear. induction l as [|r l IH]; [right; intros (q & [] & _)|].
                  destruct IH as [(q & Hq & C)|N]; [left; exists q; split; [now right|auto]|].
                  unfold inside in *. destruct (N.le_gt_cases (start r) x); [|right; intros (q & [<-|Hq] & C); [unfold inside in C; lia|apply N; exists q; auto]].
                  destruct (N.lt_ge_cases x (start r + len r)); [left; exists r; split; [now left|unfold inside; auto]|].
                  right; intros (q & [<-|Hq] & C); [unfold inside in C; lia|apply N; exists q; auto]. }
                destruct (DEC l) as [C2|N]; [auto|]. rewrite L1 by auto. apply E3; auto.
             ++ apply L2. exists q. auto.
      + injection H as <- <-. splits; auto; try discriminate. right. right. eauto.
    - injection H as <- <-. splits; auto; try discriminate. intros _. exists []. splits; auto. intros x (q & [] & _). }
  intros f m last m' o H. destruct (K _ _ _ _ _ H) as (K1 & K2 & K3 & K4). splits; auto.
  intros Q. destruct (K3 Q) as (l & V & _ & L). eauto.
Qed.

Lemma covered_perm : forall a b x, Permutation a b -> covered a x -> covered b x.
Proof. clear. intros a b x P (r & Hr & H). exists r. split; auto. eapply Permutation_in; eauto. Qed.
Lemma touched_perm : forall a b x, Permutation a b -> touched blk a x -> touched blk b x.
Proof. clear. intros a b x P (r & Hr & H). exists r. split; auto. eapply Permutation_in; eauto. Qed.
Lemma covered_touched : forall a x, covered a x -> touched blk a x.
Proof. clear. intros a x (r & Hr & H). exists r. split; auto. now apply touches_inside. Qed.

Lemma migrate_spec : forall m dest src srcw m' o, good dest -> bytes_img src ->
  migrate rfail efail wres blk page m dest src srcw = (m', o) ->
  (forall x, ~ touched blk dest x -> m' x = m x) /\
  (o = Some HfOk \/ (exists r, o = Some r /\ diff r) \/ exists e, o = Some (HfFlash e)) /\
  (o = Some HfOk -> (forall x, covered dest x -> m' x = src x) /\
     (forall x, touched blk dest x -> ~ covered dest x -> m' x = 255)) /\
  (forall r, o = Some r -> diff r -> forall x, touched blk dest x -> m' x = 255) /\
  (o = Some HfOk -> forall s, srcw = Some s -> good s -> Permutation dest s) /\
  (forall s, srcw = Some s -> Permutation dest s -> forall r, o = Some r -> ~ diff r) /\
  (srcw = None -> forall r, o = Some r -> ~ diff r).
Proof.
  intros m dest src srcw m' o G BS H. unfold migrate in H.
  set (fail := match srcw with Some s => if (length s =? length dest)%nat then HfOk else HfDiffCount | None => HfOk end) in H.
  assert (FD: fail = HfOk \/ diff fail).
  { unfold fail. destruct srcw; auto. destruct (_ =? _)%nat; auto. right. left. auto. }
  pose proof (visit_good (fun a => find_next a dest) dest (find_next_finds dest) G) as (l & V & P).
  destruct (migrate_erase rfail efail blk (length dest) m 0 fail dest srcw) as [m1 e1] eqn:E.
  pose proof (migrate_erase_frame _ _ _ _ _ _ _ _ E) as (EF & _).
  destruct e1 as [[e|r]|]; [| |apply migrate_erase_none in E; congruence].
  - apply migrate_erase_result in E; auto. destruct E as (x & ->).
    assert (m' = m1 /\ o = Some (HfFlash x)) as (-> & ->) by (split; congruence).
    assert (ND: forall r, Some (HfFlash x) = Some r -> ~ diff r).
    { intros r Q D. injection Q as <-. destruct D as [D|[D|D]]; discriminate. }
    splits; auto; try discriminate; [right; right; eauto|]. intros r Q D. exfalso. eapply ND; eauto.
  - pose proof (migrate_erase_result _ _ _ _ _ _ _ _ FD E) as RD.
    pose proof (migrate_erase_done _ _ _ _ _ _ _ _ E) as (l' & V' & ED).
    assert (l' = l) by congruence. subst l'.
    assert (ALL: forall x, touched blk dest x -> m1 x = 255).
    { intros x T. apply ED. eapply touched_perm; [apply Permutation_sym; eauto|auto]. }
    destruct RD as [->|RD].
    + pose proof (migrate_copy_spec src dest BS _ _ _ _ _ H) as (C1 & C2 & C3 & C4).
      assert (ND: forall r, o = Some r -> ~ diff r).
      { intros r Q D. destruct C4 as [->|[->|(e & ->)]]; [discriminate|..]; injection Q as <-; destruct D as [D|[D|D]]; discriminate. }
      splits; auto.
      * intros x N. rewrite C1; [auto|]. intros C. apply N. now apply covered_touched.
      * destruct C4 as [->|[->|(e & ->)]]; [exfalso; specialize (C2 eq_refl); congruence|auto|right; right; eauto].
      * intros Q. destruct (C3 Q) as (l' & V2 & C). assert (l' = l) by congruence. subst l'. split.
        -- intros x Hx. apply C. eapply covered_perm; [apply Permutation_sym; eauto|auto].
        -- intros x T N. rewrite C1 by auto. auto.
      * intros r Q D. exfalso. eapply ND; eauto.
      * intros _ s -> GS.
        assert (FO: fail = HfOk). { destruct FD as [|D]; auto. apply migrate_erase_fail in E; [congruence|]. destruct D as [D|[D|D]]; rewrite D; discriminate. }
        rewrite FO in E. unfold fail in FO. destruct (Nat.eqb_spec (length s) (length dest)) as [L|]; [|discriminate].
        assert (A0: above 0 s = s).
        { clear. unfold above. induction s as [|a s IH]; [reflexivity|]. cbn [filter]. replace (0 <=? start a) with true by lia. now rewrite IH. }
        assert (I1: incl l s).
        { eapply migrate_erase_same; eauto. rewrite A0. apply Permutation_length in P. lia. }
        apply NoDup_Permutation_bis; [apply good_disjoint; auto|lia|].
        intros x Hx. apply I1. eapply Permutation_in; [apply Permutation_sym; eauto|auto].
    + assert (m' = m1 /\ o = Some r) as (-> & ->) by (destruct RD as [->|[->| ->]]; split; congruence).
      splits; auto.
      * right. left. eauto.
      * intros Q. exfalso. destruct RD as [->|[->| ->]]; discriminate.
      * intros Q. exfalso. destruct RD as [->|[->| ->]]; discriminate.
      * intros s -> PS r' Q D. assert (r' = r) by congruence. subst r'.
        unfold fail in E. rewrite <- (Permutation_length PS), Nat.eqb_refl in E.
        apply (migrate_erase_perm dest s G PS) in E. subst r. destruct D as [D|[D|D]]; discriminate.
      * intros -> r' Q D. assert (r' = r) by congruence. subst r'. unfold fail in E. clear fail FD.
        assert (X: forall f m last m' r, migrate_erase rfail efail blk f m last HfOk dest None = (m', Some (inr r)) -> r = HfOk).
        { clear. induction f as [|f IH]; intros m last m' r H; cbn [migrate_erase] in H;
            destruct (find_next last dest) as [p|]; try discriminate; try (injection H as <- <-; reflexivity).
          destruct (erase_verify rfail efail blk m (start p) (len p)) as [m1 e].
          destruct e; try discriminate. eauto. }
        apply X in E. subst r. destruct D as [D|[D|D]]; discriminate.
Qed.
End Flash.
