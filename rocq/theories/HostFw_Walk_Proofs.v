(** The region walks of the host firmware utilities: what the search functions find, that a walk which
    ends visits every region at most once (so that one which takes more turns than there are regions
    never ends), and that over separate regions it visits them all. *)
From Coq Require Import List NArith Lia Bool Arith Permutation ZifyBool ZifyNat ZifyN.
From Verif Require Import Base Flash_Base FlashUtil_Model HostFw_Model HostFw_Spec.
Import ListNotations.
Local Open Scope N_scope.

(** The result of a search from [last]: the lowest region at or above it. *)
Definition finds (last : N) (rs : list region) (o : option region) : Prop :=
  match o with
  | None => forall r, In r rs -> start r < last
  | Some r => In r rs /\ last <= start r /\ forall r', In r' rs -> last <= start r' -> start r <= start r'
  end.

Lemma find_next_from_spec : forall rs last best seen,
  finds last seen best -> finds last (seen ++ rs) (find_next_from best last rs).
Proof.
  induction rs as [|r t IH]; intros last best seen F; cbn [find_next_from].
  - now rewrite app_nil_r.
  - replace (seen ++ r :: t) with ((seen ++ [r]) ++ t) by (rewrite <- app_assoc; reflexivity).
    destruct (N.leb_spec last (start r)) as [L|L].
    + destruct (N.eqb_spec (start r) last) as [E|E].
      * cbn [finds]. split; [|split; [lia|]].
        -- apply in_or_app. left. apply in_or_app. right. now left.
        -- intros. lia.
      * destruct best as [b|]; apply IH; cbn [finds] in *.
        -- destruct F as (F1 & F2 & F3). destruct (N.ltb_spec (start r) (start b)); cbn [finds].
           ++ split; [apply in_or_app; right; now left|]. split; [lia|].
              intros r' Hr Hl. apply in_app_or in Hr. destruct Hr as [Hr|[<-|[]]]; [|lia].
              specialize (F3 r' Hr Hl). lia.
           ++ split; [apply in_or_app; now left|]. split; [lia|].
              intros r' Hr Hl. apply in_app_or in Hr. destruct Hr as [Hr|[<-|[]]]; [auto|lia].
        -- split; [apply in_or_app; right; now left|]. split; [lia|].
           intros r' Hr Hl. apply in_app_or in Hr. destruct Hr as [Hr|[<-|[]]]; [|lia].
           specialize (F r' Hr). lia.
    + apply IH. destruct best as [b|]; cbn [finds] in *.
      * destruct F as (F1 & F2 & F3). split; [apply in_or_app; now left|]. split; [lia|].
        intros r' Hr Hl. apply in_app_or in Hr. destruct Hr as [Hr|[<-|[]]]; [auto|lia].
      * intros r' Hr. apply in_app_or in Hr. destruct Hr as [Hr|[<-|[]]]; [auto|lia].
Qed.

Lemma find_next_finds : forall rs last, finds last rs (find_next last rs).
Proof. intros. apply (find_next_from_spec rs last None []). intros r []. Qed.

(** Joining two searches. *)
Lemma finds_join : forall last a b oa ob, finds last a oa -> finds last b ob ->
  finds last (a ++ b)
    match oa, ob with
    | None, o => o
    | Some r, None => Some r
    | Some r, Some s => if start s <? start r then Some s else Some r
    end.
Proof.
  intros last a b [r|] [s|] FA FB; cbn [finds] in *.
  - destruct FA as (A1 & A2 & A3), FB as (B1 & B2 & B3).
    destruct (N.ltb_spec (start s) (start r)); cbn [finds]; (split; [apply in_or_app; auto|split; [auto|]]);
      intros r' Hr Hl; apply in_app_or in Hr; destruct Hr as [Hr|Hr]; auto; first [specialize (A3 r' Hr Hl); lia|specialize (B3 r' Hr Hl); lia].
  - destruct FA as (A1 & A2 & A3). split; [apply in_or_app; auto|split; auto].
    intros r' Hr Hl. apply in_app_or in Hr. destruct Hr as [Hr|Hr]; auto. specialize (FB r' Hr). lia.
  - destruct FB as (B1 & B2 & B3). split; [apply in_or_app; auto|split; auto].
    intros r' Hr Hl. apply in_app_or in Hr. destruct Hr as [Hr|Hr]; auto. specialize (FA r' Hr). lia.
  - intros r' Hr. apply in_app_or in Hr. destruct Hr; auto.
Qed.

(** A region right at the searched address settles the search. *)
Lemma finds_exact : forall last rs r, In r rs -> start r = last -> finds last rs (Some r).
Proof. intros last rs r H E. cbn [finds]. split; [auto|split; [lia|]]. intros. lia. Qed.

Lemma find_next_in_from_spec : forall rss last best seen,
  finds last seen best -> finds last (seen ++ concat rss) (find_next_in_from best last rss).
Proof.
  induction rss as [|rs t IH]; intros last best seen F; cbn [find_next_in_from concat].
  - now rewrite app_nil_r.
  - rewrite app_assoc. pose proof (find_next_finds rs last) as N1.
    pose proof (finds_join _ _ _ _ _ F N1) as J.
    destruct (find_next last rs) as [r|].
    + destruct (N.eqb_spec (start r) last) as [E|E].
      * apply finds_exact; [|auto]. apply in_or_app. left. apply in_or_app. right. apply N1.
      * destruct best as [b|]; apply IH; [|exact J].
        destruct (start r <? start b); exact J.
    + apply IH. destruct best; exact J.
Qed.

Lemma find_next_in_finds : forall rss last, finds last (concat rss) (find_next_in last rss).
Proof. intros. apply (find_next_in_from_spec rss last None []). intros r []. Qed.

Lemma find_next_flash_finds : forall ils w last, finds last (all_regions ils w) (find_next_flash last ils w).
Proof.
  intros. unfold find_next_flash, find_next_img, all_regions.
  pose proof (find_next_in_finds (concat (map image_regions ils)) last) as A.
  pose proof (find_next_in_finds w last) as B.
  pose proof (finds_join _ _ _ _ _ A B) as J. revert J.
  destruct (find_next_in last (concat (map image_regions ils))) as [n|];
    destruct (find_next_in last w) as [s|]; auto; intros J.
  - destruct (N.eqb_spec (start n) last) as [E|E].
    + apply finds_exact; auto. apply in_or_app. left. apply A.
    + destruct (N.eqb_spec (start s) last) as [E2|E2]; [|exact J].
      apply finds_exact; auto. apply in_or_app. right. apply B.
  - destruct (N.eqb_spec (start n) last) as [E|E]; exact J.
Qed.

(** The regions a walk visits. *)
Fixpoint visit (fuel : nat) (find : N -> option region) (last : N) : option (list region) :=
  match find last with
  | None => Some []
  | Some p =>
    match fuel with
    | O => None
    | S f => match visit f find (past p) with Some l => Some (p :: l) | None => None end
    end
  end.

Lemma visit_more : forall find f last l, visit f find last = Some l -> forall f', (length l <= f')%nat -> visit f' find last = Some l.
Proof.
  induction f as [|f IH]; intros last l H f' Hf; cbn [visit] in H.
  - destruct (find last) eqn:E; [discriminate|]. injection H as <-. destruct f'; cbn [visit]; now rewrite E.
  - destruct (find last) as [p|] eqn:E.
    + destruct (visit f find (past p)) as [t|] eqn:E2; [|discriminate]. injection H as <-.
      cbn [length] in Hf. destruct f' as [|f']; [lia|]. cbn [visit]. rewrite E.
      rewrite (IH _ _ E2 f') by lia. reflexivity.
    + injection H as <-. destruct f'; cbn [visit]; now rewrite E.
Qed.

Lemma visit_det : forall find f f' last l l', visit f find last = Some l -> visit f' find last = Some l' -> l = l'.
Proof.
  intros find f f' last l l' H H'.
  pose proof (visit_more _ _ _ _ H (Nat.max (length l) (length l')) ltac:(lia)) as A.
  pose proof (visit_more _ _ _ _ H' (Nat.max (length l) (length l')) ltac:(lia)) as B. congruence.
Qed.

Lemma visit_suffix : forall find f last l a r b, visit f find last = Some l -> l = a ++ r :: b ->
  exists f', visit f' find (past r) = Some b.
Proof.
  intros find f last l a. revert f last l. induction a as [|x a IH]; intros f last l r b H E; subst l.
  - destruct f as [|f]; cbn [visit] in H; destruct (find last) as [p|] eqn:F; try discriminate.
    destruct (visit f find (past p)) as [t|] eqn:E2; [|discriminate].
    injection H as <- <-. eauto.
  - destruct f as [|f]; cbn [visit] in H; destruct (find last) as [p|] eqn:F; try discriminate.
    destruct (visit f find (past p)) as [t|] eqn:E2; [|discriminate].
    injection H as <- ->. eapply IH; [exact E2|reflexivity].
Qed.

(** A walk that ends never visits a region twice. *)
Lemma visit_nodup : forall find f last l, visit f find last = Some l -> NoDup l.
Proof.
  intros find. induction f as [|f IH]; intros last l H; cbn [visit] in H.
  - destruct (find last); [discriminate|]. injection H as <-. constructor.
  - destruct (find last) as [p|]; [|injection H as <-; constructor].
    destruct (visit f find (past p)) as [t|] eqn:E; [|discriminate]. injection H as <-.
    constructor; [|eauto]. intros Hin. apply in_split in Hin. destruct Hin as (a & b & ->).
    destruct (visit_suffix _ _ _ _ a p b E eq_refl) as (f' & E').
    pose proof (visit_det _ _ _ _ _ _ E E') as Q.
    apply (f_equal (@length region)) in Q. rewrite app_length in Q. cbn [length] in Q. lia.
Qed.

Lemma visit_incl : forall find rs, (forall last, finds last rs (find last)) ->
  forall f last l, visit f find last = Some l -> incl l rs.
Proof.
  intros find rs F. induction f as [|f IH]; intros last l H; cbn [visit] in H;
    specialize (F last); destruct (find last) as [p|]; try discriminate;
    try (injection H as <-; intros ? []).
  destruct (visit f find (past p)) as [t|] eqn:E; [|discriminate]. injection H as <-.
  intros x [<-|Hx]; [apply F|]. eapply IH; eauto.
Qed.

(** So a walk over [n] regions that has not ended after [n] turns does not end at all. *)
Theorem visit_endless : forall find rs, (forall last, finds last rs (find last)) ->
  forall last, visit (length rs) find last = None -> forall f, visit f find last = None.
Proof.
  intros find rs F last H f. destruct (visit f find last) as [l|] eqn:E; auto.
  assert (length l <= length rs)%nat
    by (apply NoDup_incl_length; [eapply visit_nodup; eauto|eapply visit_incl; eauto]).
  rewrite (visit_more _ _ _ _ E (length rs)) in H by lia. discriminate.
Qed.

Lemma past_proper : forall r, proper r -> past r = start r + len r.
Proof. intros r (H1 & H2). unfold past, u32, W32. now rewrite N.mod_small. Qed.

(** Over proper regions the walk ends. *)
Definition above (last : N) (rs : list region) : list region := filter (fun r => last <=? start r) rs.

Lemma above_shrinks : forall last last' rs r, In r rs -> last <= start r -> last <= last' -> start r < last' ->
  (length (above last' rs) < length (above last rs))%nat.
Proof.
  intros last last' rs r. unfold above at 1 2. induction rs as [|x t IH]; intros H L M S; [destruct H|].
  assert (K: forall t, (length (above last' t) <= length (above last t))%nat).
  { clear - M. unfold above. induction t as [|y t IH]; cbn [filter]; [auto|].
    destruct (N.leb_spec last' (start y)), (N.leb_spec last (start y)); cbn [length]; lia. }
  cbn [filter]. destruct H as [->|H].
  - replace (last' <=? start r) with false by lia. replace (last <=? start r) with true by lia.
    cbn [length]. specialize (K t). unfold above in K. lia.
  - specialize (IH H L M S).
    destruct (N.leb_spec last' (start x)), (N.leb_spec last (start x)); cbn [length]; lia.
Qed.

Lemma above_all : forall last rs, (length (above last rs) <= length rs)%nat.
Proof. intros. unfold above. induction rs; cbn [filter]; [auto|]. destruct (_ <=? _); cbn [length]; lia. Qed.

Lemma visit_ends : forall find rs, (forall last, finds last rs (find last)) -> Forall proper rs ->
  forall f last, (length (above last rs) <= f)%nat -> exists l, visit f find last = Some l.
Proof.
  intros find rs F P. rewrite Forall_forall in P.
  induction f as [|f IH]; intros last Hf; cbn [visit]; pose proof (F last) as FL.
  - destruct (find last) as [p|]; [|eauto]. destruct FL as (I1 & I2 & _). exfalso.
    unfold above in Hf. destruct (filter _ rs) eqn:E; [|cbn in Hf; lia].
    assert (In p (filter (fun r => last <=? start r) rs)) by (apply filter_In; split; [auto|lia]).
    rewrite E in H. destruct H.
  - destruct (find last) as [p|]; [|eauto]. destruct FL as (I1 & I2 & _).
    pose proof (P p I1) as PP. destruct (IH (past p)) as (l & ->); [|eauto].
    rewrite past_proper by auto. destruct PP.
    pose proof (above_shrinks last (start p + len p) rs p I1 I2 ltac:(lia) ltac:(lia)). lia.
Qed.

(** Over separate regions it visits each of them. *)
Lemma good_disjoint : forall rs, good rs -> NoDup rs /\ forall r s, In r rs -> In s rs -> r <> s -> disjoint r s.
Proof.
  intros rs (P & D). induction rs as [|x t IH].
  - split; [constructor|intros r s []].
  - inversion P as [|? ? PX PT]; subst. inversion D as [|? ? DX DT]; subst.
    destruct (IH PT DT) as (N1 & D1). rewrite Forall_forall in DX. split.
    + constructor; auto. intros Hin. apply (DX x Hin (start x)). destruct PX. unfold inside. lia.
    + intros r s [<-|Hr] [<-|Hs] Ne; auto; [congruence|].
      intros y (Y1 & Y2). apply (DX r Hr y). tauto.
Qed.

Lemma disjoint_order : forall r s, proper r -> proper s -> disjoint r s -> start r <= start s -> start r + len r <= start s.
Proof.
  intros r s (R1 & R2) (S1 & S2) D L. destruct (N.le_gt_cases (start r + len r) (start s)); auto. exfalso.
  apply (D (start s)). unfold inside. lia.
Qed.

Lemma visit_all : forall find rs, (forall last, finds last rs (find last)) -> good rs ->
  forall f last l, visit f find last = Some l -> forall r, In r rs -> last <= start r -> In r l.
Proof.
  intros find rs F G. pose proof (good_disjoint rs G) as (_ & D). destruct G as (P & _). rewrite Forall_forall in P.
  induction f as [|f IH]; intros last l H r Hr L; cbn [visit] in H; pose proof (F last) as FL.
  - destruct (find last) as [p|]; [discriminate|]. specialize (FL r Hr). lia.
  - destruct (find last) as [p|]; [|specialize (FL r Hr); lia].
    destruct (visit f find (past p)) as [t|] eqn:E; [|discriminate]. injection H as <-.
    destruct FL as (I1 & I2 & I3). rewrite past_proper in E by auto.
    assert (DEC: {r = p} + {r <> p}) by (decide equality; apply N.eq_dec).
    destruct DEC as [->|Ne]; [now left|]. right. eapply IH; eauto.
    specialize (I3 r Hr L). apply disjoint_order; auto. 
Qed.

Theorem visit_good : forall find rs, (forall last, finds last rs (find last)) -> good rs ->
  exists l, visit (length rs) find 0 = Some l /\ Permutation l rs.
Proof.
  intros find rs F G. destruct (visit_ends find rs F (proj1 G) (length rs) 0 (above_all 0 rs)) as (l & E).
  exists l. split; auto. apply NoDup_Permutation.
  - eapply visit_nodup; eauto.
  - apply good_disjoint; auto.
  - intros x. split; [eapply visit_incl; eauto|]. intros Hx. eapply visit_all; eauto. lia.
Qed.

Lemma good_perm : forall a b, Permutation a b -> good a -> good b.
Proof.
  intros a b H (P & D). split.
  - rewrite Forall_forall in *. intros x Hx. apply P. eapply Permutation_in; [apply Permutation_sym; eauto|auto].
  - revert P D. induction H as [|x l l' H IH|x y l|l l' l'' H1 IH1 H2 IH2]; intros P D; auto.
    + inversion D as [|? ? DX DT]; subst. inversion P; subst. constructor; auto.
      rewrite Forall_forall in *. intros z Hz. apply DX. eapply Permutation_in; [apply Permutation_sym; eauto|auto].
    + inversion D as [|? ? DX DT]; subst. inversion DT as [|? ? DY DU]; subst. inversion DX as [|? ? XY XL]; subst.
      constructor; [|constructor]; auto. constructor; auto. intros z (Z1 & Z2). apply (XY z). tauto.
    + apply IH2; [|auto]. rewrite Forall_forall in *. intros x Hx. apply P. eapply Permutation_in; [apply Permutation_sym; eauto|auto].
Qed.

(** The visited regions are in increasing order, each at or above where the walk started. *)
Lemma visit_above : forall find rs, (forall last, finds last rs (find last)) -> Forall proper rs ->
  forall f last l, visit f find last = Some l -> forall r, In r l -> last <= start r.
Proof.
  intros find rs F P. rewrite Forall_forall in P.
  induction f as [|f IH]; intros last l H r Hr; cbn [visit] in H; pose proof (F last) as FL;
    destruct (find last) as [p|]; try discriminate; try (injection H as <-; destruct Hr).
  destruct (visit f find (past p)) as [t|] eqn:E; [|discriminate]. injection H as <-.
  destruct FL as (I1 & I2 & I3). destruct Hr as [<-|Hr]; [auto|].
  rewrite past_proper in E by auto. specialize (IH _ _ E r Hr). lia.
Qed.
