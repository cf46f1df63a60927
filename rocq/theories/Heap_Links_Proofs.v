(** Doubly linked lists in memory: what the pointer updates of the heap do to them. *)
From Coq Require Import List NArith Bool Arith Lia Permutation.
From Coq Require Import ZifyBool ZifyNat ZifyN.
From Verif Require Import Base Heap_Model Heap_Spec.
Import ListNotations.
Local Open Scope N_scope.

Definition first (q : N) (l : list N) : N := match l with [] => q | a :: _ => a end.

(** [seg m p l q]: the elements of [l] are linked in order, [p] before the first, [q] after the last. *)
Fixpoint seg (m : mem) (p : N) (l : list N) (q : N) : Prop :=
  match l with
  | [] => True
  | a :: t => pv m a = p /\ nx m a = first q t /\ seg m a t q
  end.

Lemma seg_ext m m' l : forall p q,
  (forall x, In x l -> nx m' x = nx m x /\ pv m' x = pv m x) -> seg m p l q -> seg m' p l q.
Proof.
  induction l as [|a t IH]; intros p q He Hs; [exact I|].
  destruct Hs as (H1 & H2 & H3). destruct (He a (or_introl eq_refl)) as [E1 E2].
  cbn [seg]. rewrite E1, E2. repeat split; auto. apply IH; auto. intros x Hx. apply He. now right.
Qed.

Lemma first_app q a b : first q (a ++ b) = first (first q b) a.
Proof. now destruct a. Qed.

Lemma seg_app m l1 : forall p l2 q,
  seg m p (l1 ++ l2) q <-> seg m p l1 (first q l2) /\ seg m (last l1 p) l2 q.
Proof.
  induction l1 as [|a t IH]; intros p l2 q; [cbn; tauto|].
  cbn [app seg]. rewrite IH, first_app.
  replace (last (a :: t) p) with (last t a); [tauto|].
  destruct t as [|b t]; [reflexivity|]. cbn [last].
  clear IH. revert b. induction t as [|c t IH]; intros b; [reflexivity|]. cbn [last]. apply IH.
Qed.

Lemma last_snoc {A} (l : list A) x d : last (l ++ [x]) d = x.
Proof. induction l as [|a t IH]; [reflexivity|]. cbn [app]. destruct (t ++ [x]) eqn:E; [now destruct t|]. cbn [last] in *. exact IH. Qed.

Lemma NoDup_app_iff {A} (l1 l2 : list A) :
  NoDup (l1 ++ l2) <-> NoDup l1 /\ NoDup l2 /\ (forall x, In x l1 -> ~ In x l2).
Proof.
  induction l1 as [|a t IH]; cbn.
  - split; [intros; repeat split; auto; constructor|tauto].
  - rewrite !NoDup_cons_iff, IH, in_app_iff. split.
    + intros (H1 & H2 & H3 & H4). repeat split; auto. intros x [<-|Hx]; auto.
    + intros ((H1 & H2) & H3 & H4). repeat split; auto. intros [H|H]; auto. exact (H4 a (or_introl eq_refl) H).
Qed.

Lemma put_same f a v : put f a v a = v.
Proof. unfold put. now rewrite N.eqb_refl. Qed.
Lemma put_other f a v x : x <> a -> put f a v x = f x.
Proof. intros H. unfold put. destruct (N.eqb_spec x a); congruence. Qed.

(** Distinctness facts from NoDup of a concatenation. *)
Ltac nodup H :=
  repeat first [ rewrite NoDup_app_iff in H | rewrite NoDup_cons_iff in H | rewrite in_app_iff in H | progress cbn [In app] in H ].

Ltac neq := first [assumption | congruence | intros ->; tauto].
Ltac puts :=
  repeat match goal with
  | |- context [put ?f ?a ?v ?x] =>
    first [ constr_eq a x; rewrite (put_same f a v) | rewrite (put_other f a v x) by neq ]
  end.

Lemma split_last (l : list N) : l = [] \/ exists t x, l = t ++ [x].
Proof. destruct l; [now left|right].
  destruct (exists_last (l := n :: l)) as (t & x & H); [discriminate|]. now exists t, x. Qed.

Definition same_off (m m' : mem) (l : list N) : Prop :=
  forall x, ~ In x l -> nx m' x = nx m x /\ pv m' x = pv m x.

Lemma unlink_spec m hd L1 r L2 m' hd' :
  NoDup (L1 ++ r :: L2) -> ~ In 0 (L1 ++ r :: L2) -> seg m 0 (L1 ++ r :: L2) 0 -> hd = first 0 (L1 ++ r :: L2) ->
  unlink m hd r = (m', hd') ->
  seg m' 0 (L1 ++ L2) 0 /\ hd' = first 0 (L1 ++ L2) /\ mg m' = mg m /\ sz m' = sz m /\ same_off m m' (L1 ++ L2).
Proof.
  intros HN H0 HS Hh HU. apply seg_app in HS. cbn [first seg] in HS. destruct HS as (S1 & Sp & Sn & S2).
  assert (Er : r <> 0) by (intros ->; apply H0, in_or_app; right; now left).
  unfold unlink in HU. destruct (split_last L1) as [->|(L1' & p & ->)].
  - cbn [last app] in *. rewrite Sp in HU. cbn [N.eqb] in HU. rewrite Sn in HU.
    destruct L2 as [|n L2]; cbn [first app] in *.
    + cbn in HU. injection HU as <- <-. repeat split; auto.
    + assert (n <> 0) by (intros ->; apply H0; right; now left).
      rewrite (proj2 (N.eqb_neq n 0)) in HU by assumption. injection HU as <- <-. cbn [seg] in S2.
      nodup HN. destruct S2 as (P & Q & R). unfold set_pv. cbn [seg nx pv mg sz].
      repeat split; auto; try (now rewrite put_same).
      * eapply seg_ext; [|exact R]. intros x Hx. cbn [nx pv]. split; [reflexivity|]. apply put_other. intros ->. tauto.
      * cbn [pv]. apply put_other. intros ->. apply H1. now left.
  - rewrite last_snoc in Sp. assert (p <> 0) by (intros ->; apply H0; rewrite <- app_assoc; apply in_or_app; right; now left).
    rewrite Sp in HU. rewrite (proj2 (N.eqb_neq p 0)) in HU by assumption.
    rewrite <- app_assoc in HN. cbn [app] in HN.
    apply seg_app in S1. cbn [seg first] in S1. destruct S1 as (S1 & Pp & Pn & _).
    assert (Npr : r <> p) by (nodup HN; intros ->; tauto).
    cbv zeta in HU. unfold set_nx in HU. cbn [nx pv] in HU. rewrite !(put_other _ p _ r) in HU by assumption.
    rewrite Sn, Sp in HU. destruct L2 as [|n L2]; cbn [first] in HU.
    + rewrite N.eqb_refl in HU. injection HU as <- <-. rewrite app_nil_r.
      nodup HN. repeat split; cbn [mg sz nx pv]; auto.
      * apply seg_app. cbn [seg first nx pv]. rewrite put_same. repeat split; auto.
        eapply seg_ext; [|exact S1]. intros x Hx. cbn [nx pv]. split; [|reflexivity]. apply put_other. intros ->. destruct HN as (_ & _ & HN). apply (HN p Hx). now left.
      * rewrite Hh. destruct L1'; reflexivity.
      * apply put_other. intros ->. apply H1. apply in_or_app. right. now left.
    + assert (n <> 0) by (intros ->; apply H0; apply in_or_app; right; right; now left).
      rewrite (proj2 (N.eqb_neq n 0)) in HU by assumption. injection HU as <- <-.
      rewrite <- app_assoc. cbn [app]. nodup HN. destruct HN as (N1 & (N2 & N3 & N4 & N5) & N6).
      cbn [seg] in S2. destruct S2 as (Q1 & Q2 & S2). unfold set_pv. cbn [mg sz nx pv].
      repeat split; auto.
      * apply seg_app. cbn [seg first nx pv]. rewrite !put_same. rewrite ?(put_other _ n _ p) by (intros ->; tauto).
        rewrite (put_other _ p _ n) by (intros ->; tauto). repeat split; auto.
        -- eapply seg_ext; [|exact S1]. intros x Hx. cbn [nx pv]. specialize (N6 x Hx). cbn [In] in N6.
           split; apply put_other; intros ->; tauto.
        -- eapply seg_ext; [|exact S2]. intros x Hx. cbn [nx pv]. split; apply put_other; intros ->; tauto.
      * rewrite Hh. destruct L1'; reflexivity.
      * cbn [nx]. apply put_other. intros ->. apply H2. apply in_or_app. right. now left.
      * cbn [pv]. apply put_other. intros ->. apply H2. apply in_or_app. right. right. now left.
Qed.

Lemma push_allocated_spec m A r size :
  NoDup (r :: A) -> ~ In 0 A -> seg m 0 A 0 ->
  let m' := push_allocated m (first 0 A) r size in
  seg m' 0 (r :: A) 0 /\ mg m' = put (mg m) r MAGIC /\ sz m' = put (sz m) r size /\ same_off m m' (r :: A).
Proof.
  intros HN H0 HS. cbv zeta. unfold push_allocated. destruct A as [|a A]; cbn [first].
  - cbn. rewrite !put_same. repeat split; auto; cbn; apply put_other; intros ->; apply H; now left.
  - assert (a <> 0) by (intros ->; apply H0; now left). rewrite (proj2 (N.eqb_neq a 0)) by assumption.
    nodup HN. destruct HS as (P & Q & S). unfold set_pv, set_nx, set_sz, set_mg. cbn [seg first mg sz nx pv].
    rewrite !put_same. rewrite (put_other _ r _ a) by (intros ->; tauto). rewrite (put_other _ a _ r) by (intros ->; tauto). rewrite put_same.
    repeat split; auto.
    + eapply seg_ext; [|exact S]. intros x Hx. cbn [nx pv]. split; repeat rewrite put_other; auto; intros ->; tauto.
    + cbn [nx]. apply put_other. intros ->. apply H1. now left.
    + cbn [pv]. rewrite !put_other; auto; intros ->; apply H1; [now left|right; now left].
Qed.

Section Join.
  Variable HL : N.

  (** Joining a block of the free list with the one after it. *)
  Lemma join_in_spec m L1 b L2 runner :
    NoDup (L1 ++ b :: L2) -> ~ In 0 (L1 ++ b :: L2) -> seg m 0 (L1 ++ b :: L2) 0 ->
    let m' := join_next HL m b (first 0 L2) runner true in
    match L2 with
    | [] => m' = m
    | n :: L2' =>
      if block_end HL m b =? n then
        seg m' 0 (L1 ++ b :: L2') 0 /\ mg m' = put (mg m) n 0 /\
        sz m' = put (put (sz m) b (sz m b + (sz m n + HL))) n 0 /\ same_off m m' (L1 ++ b :: L2)
      else m' = m
    end.
  Proof.
    intros HN H0 HS. cbv zeta. destruct L2 as [|n L2]; cbn [first]; unfold join_next; [reflexivity|].
    assert (n <> 0) by (intros ->; apply H0; apply in_or_app; right; right; now left).
    rewrite (proj2 (N.eqb_neq n 0)) by assumption. cbn [negb andb].
    destruct (N.eqb_spec (block_end HL m b) n) as [E|E]; [|reflexivity].
    apply seg_app in HS. cbn [seg first] in HS. destruct HS as (S1 & Pb & Nb & Pn & Nn & S2).
    nodup HN. destruct HN as (N1 & (N2 & N3 & N4) & N6).
    assert (Nnb : n <> b) by (intros ->; tauto).
    cbv zeta. cbn [set_sz set_nx nx pv]. rewrite !(put_other _ b _ n) by assumption.
    rewrite Nn. destruct L2 as [|k L2]; cbn [first].
    - rewrite N.eqb_refl. unfold wipe, set_pv, set_nx, set_sz, set_mg. cbn [mg sz nx pv].
      repeat split; auto.
      + apply seg_app. cbn [seg first nx pv]. puts. repeat split; auto; try exact Nn.
        eapply seg_ext; [|exact S1]. intros x Hx. cbn [nx pv]. specialize (N6 x Hx). cbn [In] in N6.
        split; repeat rewrite put_other; auto; intros ->; tauto.
      + cbn [nx]. assert (~ In x (L1 ++ [b; n])) as Hn by assumption. rewrite in_app_iff in Hn. cbn [In] in Hn.
        rewrite !put_other; auto; intros ->; tauto.
      + cbn [pv]. assert (~ In x (L1 ++ [b; n])) as Hn by assumption. rewrite in_app_iff in Hn. cbn [In] in Hn.
        rewrite !put_other; auto; intros ->; tauto.
    - assert (k <> 0) by (intros ->; apply H0; apply in_or_app; right; right; right; now left).
      rewrite (proj2 (N.eqb_neq k 0)) by assumption. cbn [seg] in S2. destruct S2 as (Pk & Nk & S2). cbn [In] in *.
      unfold wipe, set_pv, set_nx, set_sz, set_mg. cbn [mg sz nx pv].
      nodup N4. assert (n <> b) by (intros ->; tauto). assert (k <> b) by (intros ->; tauto). assert (k <> n) by (intros ->; tauto).
      repeat split; auto.
      + apply seg_app. cbn [seg first nx pv].
        puts.
        repeat split; auto.
        * eapply seg_ext; [|exact S1]. intros x Hx. cbn [nx pv]. specialize (N6 x Hx). cbn [In] in N6.
          split; repeat rewrite put_other; auto; intros ->; tauto.
        * eapply seg_ext; [|exact S2]. intros x Hx. cbn [nx pv].
          split; repeat rewrite put_other; auto; intros ->; tauto.
      + cbn [nx]. match goal with Hn : ~ In x _ |- _ => rewrite in_app_iff in Hn; cbn [In] in Hn end.
        rewrite !put_other; auto; intros ->; tauto.
      + cbn [pv]. match goal with Hn : ~ In x _ |- _ => rewrite in_app_iff in Hn; cbn [In] in Hn end.
        rewrite !put_other; auto; intros ->; tauto.
  Qed.

  (** Linking a block after [r], joining it with the block after it if they touch. *)
  Lemma join_out_spec m L1 r b L2 :
    NoDup (L1 ++ r :: b :: L2) -> ~ In 0 (L1 ++ r :: b :: L2) -> seg m 0 (L1 ++ r :: L2) 0 ->
    let m' := join_next HL m b (first 0 L2) r false in
    same_off m m' (L1 ++ r :: b :: L2) /\
    match L2 with
    | [] => seg m' 0 (L1 ++ r :: b :: L2) 0 /\ mg m' = mg m /\ sz m' = sz m
    | n :: L2' =>
      if block_end HL m b =? n then
        seg m' 0 (L1 ++ r :: b :: L2') 0 /\ mg m' = put (mg m) n 0 /\
        sz m' = put (put (sz m) b (sz m b + (sz m n + HL))) n 0
      else seg m' 0 (L1 ++ r :: b :: L2) 0 /\ mg m' = mg m /\ sz m' = sz m
    end.
  Proof.
    intros HN H0 HS. cbv zeta.
    assert (Eb : b <> 0) by (intros ->; apply H0; apply in_or_app; right; right; now left).
    assert (Er : r <> 0) by (intros ->; apply H0; apply in_or_app; right; now left).
    apply seg_app in HS. cbn [seg] in HS. destruct HS as (S1 & Pr & Nr & S2). cbn [first] in S1.
    nodup HN. destruct HN as (N1 & (N2 & N3 & N4) & N6). assert (Nbr : b <> r) by (intros ->; tauto).
    assert (L1x : forall x, In x L1 -> x <> r /\ x <> b /\ ~ In x L2).
    { intros x Hx. specialize (N6 x Hx). cbn [In] in N6. repeat split; try (intros ->); tauto. }
    assert (plain : first 0 L2 = 0 \/ True ->
      let m3 := set_nx (set_pv (set_nx m b (nx m r)) b r) r b in
      let m' := if nx m3 b =? 0 then m3 else set_pv m3 (nx m3 b) b in
      same_off m m' (L1 ++ r :: b :: L2) /\ seg m' 0 (L1 ++ r :: b :: L2) 0 /\ mg m' = mg m /\ sz m' = sz m).
    { intros _. cbv zeta. unfold set_pv, set_nx. cbn [nx pv]. rewrite (put_other _ r _ b), put_same by assumption. rewrite Nr.
      destruct L2 as [|n L2]; cbn [first].
      - rewrite N.eqb_refl. cbn [mg sz]. split; [|split; [|auto]].
        + intros x Hx. rewrite in_app_iff in Hx. cbn [In] in Hx. cbn [nx pv]. rewrite !put_other; auto; intros ->; tauto.
        + apply seg_app. cbn [seg first nx pv]. puts.
          repeat split; auto. eapply seg_ext; [|exact S1]. intros x Hx. cbn [nx pv]. destruct (L1x x Hx) as (? & ? & ?).
          split; rewrite !put_other; auto.
      - assert (n <> 0) by (intros ->; apply H0; apply in_or_app; right; right; right; now left).
        rewrite (proj2 (N.eqb_neq n 0)) by assumption. cbn [seg In] in *. destruct S2 as (Pn & Nn & S2).
        nodup N4. assert (n <> b) by (intros ->; tauto). assert (n <> r) by (intros ->; tauto). cbn [mg sz]. split; [|split; [|auto]].
        + intros x Hx. rewrite in_app_iff in Hx. cbn [In] in Hx. cbn [nx pv]. rewrite !put_other; auto; intros ->; tauto.
        + apply seg_app. cbn [seg first nx pv].
          puts.
          repeat split; auto.
          * eapply seg_ext; [|exact S1]. intros x Hx. cbn [nx pv]. destruct (L1x x Hx) as (? & ? & ?).
            split; rewrite !put_other; auto; intros ->; tauto.
          * eapply seg_ext; [|exact S2]. intros x Hx. cbn [nx pv].
            split; rewrite !put_other; auto; intros ->; tauto. }
    destruct L2 as [|n L2].
    { unfold join_next. cbn [first N.eqb negb andb]. apply plain. auto. }
    unfold join_next. cbn [first].
    assert (n <> 0) by (intros ->; apply H0; apply in_or_app; right; right; right; now left).
    rewrite (proj2 (N.eqb_neq n 0)) by assumption. cbn [negb andb].
    destruct (N.eqb_spec (block_end HL m b) n) as [E|E]; [|apply plain; auto].
    clear plain. cbn [seg first In] in *. destruct S2 as (Pn & Nn & S2). nodup N4.
    assert (n <> b) by (intros ->; tauto). assert (n <> r) by (intros ->; tauto).
    cbv zeta. cbn [set_sz set_nx nx pv]. rewrite !(put_other _ b _ n) by congruence. rewrite Nn.
    destruct L2 as [|k L2]; cbn [first].
    - rewrite N.eqb_refl. unfold wipe, set_pv, set_nx, set_sz, set_mg. cbn [mg sz nx pv].
      rewrite !(put_other _ b _ n), Pn by congruence. split; [|split; [|auto]].
      + intros x Hx. rewrite in_app_iff in Hx. cbn [In] in Hx. cbn [nx pv]. rewrite !put_other; auto; intros ->; tauto.
      + apply seg_app. cbn [seg first nx pv].
        puts.
        repeat split; auto; try exact Nn. eapply seg_ext; [|exact S1]. intros x Hx. cbn [nx pv]. destruct (L1x x Hx) as (? & ? & ?).
        split; rewrite !put_other; auto; intros ->; tauto.
    - assert (k <> 0) by (intros ->; apply H0; apply in_or_app; right; right; right; right; now left).
      rewrite (proj2 (N.eqb_neq k 0)) by assumption. cbn [seg In] in *. destruct S2 as (Pk & Nk & S2). nodup N4.

      assert (k <> b) by (intros ->; tauto). assert (k <> n) by (intros ->; tauto). assert (k <> r) by (intros ->; tauto).
      unfold wipe, set_pv, set_nx, set_sz, set_mg. cbn [mg sz nx pv].
      rewrite !(put_other _ b _ n), !(put_other _ k _ n), Pn by congruence. split; [|split; [|auto]].
      + intros x Hx. rewrite in_app_iff in Hx. cbn [In] in Hx. cbn [nx pv]. rewrite !put_other; auto; intros ->; tauto.
      + apply seg_app. cbn [seg first nx pv].
        puts.
        repeat split; auto.
        * eapply seg_ext; [|exact S1]. intros x Hx. cbn [nx pv]. destruct (L1x x Hx) as (? & ? & ?). cbn [In] in *.
          split; rewrite !put_other; auto; intros ->; tauto.
        * eapply seg_ext; [|exact S2]. intros x Hx. cbn [nx pv].
          split; rewrite !put_other; auto; intros ->; tauto.
  Qed.
End Join.
