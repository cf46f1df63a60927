(** The list of an observable object. *)
From Coq Require Import List NArith Bool Arith Lia.
From Verif Require Import Base Observable_Model Observable_Spec.
Import ListNotations.
Local Open Scope N_scope.

Fixpoint linked (nx : N -> N) (p : N) (l : list N) : Prop :=
  match l with
  | [] => p = 0
  | a :: t => p = a /\ linked nx (nx a) t
  end.

Lemma linked_ext nx nx' l : forall p, (forall x, In x l -> nx' x = nx x) -> linked nx p l -> linked nx' p l.
Proof.
  induction l as [|a t IH]; intros p He H; [exact H|]. destruct H as [-> H]. split; [reflexivity|].
  rewrite He by (now left). apply IH; auto. intros x Hx. apply He. now right.
Qed.

Lemma at_put_same f a v : at_put f a v a = v.
Proof. unfold at_put. now rewrite N.eqb_refl. Qed.
Lemma at_put_other f a v x : x <> a -> at_put f a v x = f x.
Proof. unfold at_put. intros H. destruct (N.eqb_spec x a); congruence. Qed.

Lemma is_taken_spec s a : is_taken s a = true <-> In a (taken s).
Proof.
  unfold is_taken. rewrite existsb_exists. split.
  - intros (x & Hx & E). apply N.eqb_eq in E. now subst.
  - intros H. exists a. split; [exact H|apply N.eqb_refl].
Qed.

Lemma give_back_in a l x : In x (give_back a l) <-> In x l /\ x <> a.
Proof. unfold give_back. rewrite filter_In. destruct (N.eqb_spec x a); cbn; intuition congruence. Qed.
Lemma give_back_nodup a l : NoDup l -> NoDup (give_back a l).
Proof. apply NoDup_filter. Qed.

(** The entries [e] are linked from the head, are exactly the allocated entries, and no observer occurs twice. *)
Record oinv (s : obs) (e : list N) : Prop := {
  o_link : linked (nxt s) (head s) e;
  o_nodup : NoDup e;
  o_null : ~ In 0 e;
  o_taken : forall x, In x (taken s) <-> In x e;
  o_len : length (taken s) = length e;
  o_who : NoDup (map (who s) e);
  o_obs : ~ In 0 (map (who s) e)
}.

(** Appending an entry at the end of a list. *)
Lemma linked_snoc nx e a : forall p, linked nx p e -> ~ In a e -> NoDup e ->
  match e with [] => True | _ => linked (at_put (at_put nx a 0) (last e 0) a) p (e ++ [a]) end.
Proof.
  induction e as [|x t IH]; intros p H Ha HN; [exact I|]. destruct H as [-> H]. apply NoDup_cons_iff in HN. destruct HN as [Hx HN].
  cbn [app]. split; [reflexivity|]. destruct t as [|y t].
  - cbn [last app linked]. rewrite at_put_same. split; [reflexivity|]. rewrite at_put_other by (intros ->; apply Ha; now left).
    now rewrite at_put_same.
  - change (last (x :: y :: t) 0) with (last (y :: t) 0).
    assert (lin : In (last (y :: t) 0) (y :: t)).
    { clear. revert y. induction t as [|z t IH]; intros y; [now left|]. right. apply IH. }
    rewrite at_put_other by (intros E; apply Hx; rewrite E; exact lin). rewrite at_put_other by (intros E; apply Ha; left; congruence).
    apply IH; auto. intros Hi. apply Ha. now right.
Qed.

Lemma scan_add_spec s o : forall e n pos prev, linked (nxt s) pos e -> (forall x, In x e -> In x (taken s)) -> ~ In 0 e -> (length e < n)%nat ->
  (In o (map (who s) e) /\ scan_add n s pos prev o = Dup) \/
  (~ In o (map (who s) e) /\ scan_add n s pos prev o = End (last e prev)).
Proof.
  induction e as [|a t IH]; intros n pos prev HL HT H0 Hn; (destruct n as [|n]; [cbn [length] in Hn; lia|]); cbn [scan_add linked] in *.
  - subst pos. right. split; [intros []|reflexivity].
  - destruct HL as [-> HL]. rewrite (proj2 (N.eqb_neq a 0)) by (intros ->; apply H0; now left).
    rewrite (proj2 (is_taken_spec s a)) by (apply HT; now left). cbn [negb].
    destruct (N.eqb_spec o (who s a)) as [E|E].
    { left. split; [left; auto|reflexivity]. }
    destruct (IH n (nxt s a) a HL) as [(I1 & I2)|(I1 & I2)]; [intros x Hx; apply HT; now right|intros Hi; apply H0; now right|cbn [length] in Hn; lia| |].
    + left. split; [now right|exact I2].
    + right. split; [intros [Hi|Hi]; [congruence|auto]|]. rewrite I2. f_equal. clear.
      destruct t as [|b t]; [reflexivity|]. cbn [last]. revert b. induction t as [|c t IH]; intros b; [reflexivity|]. cbn [last]. apply IH.
Qed.

Lemma add_spec s e a o : oinv s e -> a <> 0 -> ~ In a (taken s) -> o <> 0 ->
  exists s' e', add_observer s a o = Done s' /\ oinv s' e' /\
    map (who s') e' = (if existsb (N.eqb o) (map (who s) e) then map (who s) e else map (who s) e ++ [o]).
Proof.
  intros I Ha Hn Ho. unfold add_observer. rewrite (proj2 (N.eqb_neq o 0)), (proj2 (N.eqb_neq a 0)) by assumption. cbv zeta.
  set (s1 := Obs (at_put (who s) a o) (at_put (nxt s) a 0) (head s) (a :: taken s)).
  assert (ae : ~ In a e) by (intros H; apply Hn, (o_taken _ _ I), H).
  assert (W1 : forall l, ~ In a l -> map (who s1) l = map (who s) l).
  { intros l Hl. apply map_ext_in. intros x Hx. cbn. apply at_put_other. intros ->. auto. }
  assert (L1 : linked (nxt s1) (head s1) e).
  { eapply linked_ext; [|apply (o_link _ _ I)]. intros x Hx. cbn. apply at_put_other. intros ->. auto. }
  destruct (N.eqb_spec (head s1) 0) as [E|E].
  - assert (e = []) as ->.
    { destruct e as [|x t]; [reflexivity|]. destruct (o_link _ _ I) as [Ex _]. cbn in E. exfalso. apply (o_null _ _ I). left. congruence. }
    exists (Obs (who s1) (nxt s1) a (taken s1)), [a]. split; [reflexivity|]. split.
    + constructor; cbn.
      * rewrite at_put_same. auto.
      * repeat constructor. intros [].
      * intros [H|[]]. congruence.
      * intros x. pose proof (o_taken _ _ I x) as Q. cbn [In] in *. tauto.
      * pose proof (o_len _ _ I) as Q. cbn in Q. lia.
      * repeat constructor. intros [].
      * rewrite at_put_same. intros [H|[]]. congruence.
    + cbn. now rewrite at_put_same.
  - assert (T1 : forall x, In x e -> In x (taken s1)) by (intros x Hx; right; apply (o_taken _ _ I), Hx).
    assert (F1 : (length e < S (length (taken s1)))%nat) by (cbn; rewrite (o_len _ _ I); lia).
    destruct (scan_add_spec s1 o e _ (head s1) 0 L1 T1 (o_null _ _ I) F1) as [(D1 & D2)|(D1 & D2)]; rewrite D2; rewrite W1 in D1 by assumption.
    + exists (Obs (who s1) (nxt s1) (head s1) (give_back a (taken s1))), e. split; [reflexivity|].
      assert (EX : existsb (N.eqb o) (map (who s) e) = true) by (apply existsb_exists; exists o; split; [exact D1|apply N.eqb_refl]).
      assert (GB : give_back a (a :: taken s) = taken s).
      { unfold give_back. cbn [filter]. rewrite N.eqb_refl. cbn [negb]. clear - Hn. induction (taken s) as [|x t IH]; [reflexivity|]. cbn [filter].
        rewrite (proj2 (N.eqb_neq x a)) by (intros ->; apply Hn; now left). cbn [negb]. f_equal. apply IH. intros H. apply Hn. now right. }
      split; [|rewrite EX; cbn [who]; now apply W1].
      constructor; try (cbn [who head nxt taken]); auto; try apply I.
      * cbn [taken s1]. rewrite GB. apply I.
      * cbn [taken s1]. rewrite GB. apply I.
      * fold s1. rewrite W1 by assumption. apply I.
      * fold s1. rewrite W1 by assumption. apply I.
    + assert (lin : In (last e 0) e).
      { destruct e as [|x t]; [exfalso; apply E; exact L1|]. clear. revert x. induction t as [|z t IH]; intros y; [now left|]. right. apply IH. }
      rewrite (proj2 (is_taken_spec s1 _) (T1 _ lin)).
      exists (Obs (who s1) (at_put (nxt s1) (last e 0) a) (head s1) (taken s1)), (e ++ [a]). split; [reflexivity|].
      assert (EX : existsb (N.eqb o) (map (who s) e) = false).
      { destruct (existsb (N.eqb o) (map (who s) e)) eqn:X; [|reflexivity]. apply existsb_exists in X. destruct X as (y & Hy & Ey). apply N.eqb_eq in Ey. subst y. contradiction. }
      assert (WA : map (who s1) (e ++ [a]) = map (who s) e ++ [o]).
      { rewrite map_app, W1 by assumption. cbn [map]. f_equal. f_equal. cbn. apply at_put_same. }
      split; [|rewrite EX; exact WA].
      constructor; cbn [who head nxt taken].
      * pose proof (linked_snoc (nxt s) e a (head s) (o_link _ _ I) ae (o_nodup _ _ I)) as LS. destruct e as [|x t]; [destruct lin|]. exact LS.
      * rewrite <- (app_nil_r (e ++ [a])), <- app_assoc. cbn [app].
        apply NoDup_Add with (a := a) (l := e ++ []); [apply Add_app|]. rewrite app_nil_r. split; [apply I|exact ae].
      * rewrite in_app_iff. intros [H|[H|[]]]; [exact (o_null _ _ I H)|congruence].
      * intros x. cbn [s1 taken In]. rewrite in_app_iff. cbn [In]. rewrite (o_taken _ _ I). tauto.
      * cbn [s1 taken length]. rewrite app_length, (o_len _ _ I). cbn. lia.
      * fold s1. rewrite WA. rewrite <- (app_nil_r (_ ++ [o])), <- app_assoc. cbn [app].
        apply NoDup_Add with (a := o) (l := map (who s) e ++ []); [apply Add_app|]. rewrite app_nil_r. split; [apply I|exact D1].
      * fold s1. rewrite WA, in_app_iff. intros [H|[H|[]]]; [exact (o_obs _ _ I H)|congruence].
Qed.

(** Removing the entry for [o], with [pre] already passed. *)
Lemma scan_remove_spec s o : forall e pre n, oinv s (pre ++ e) -> ~ In o (map (who s) pre) ->
  linked (nxt s) (match e with [] => 0 | x :: _ => x end) e -> (length e < n)%nat ->
  exists s' e', scan_remove n s (match e with [] => 0 | x :: _ => x end) (last pre 0) o = Done s' /\ oinv s' e' /\
    map (who s') e' = filter (fun x => negb (x =? o)) (map (who s) (pre ++ e)).
Proof.
  induction e as [|a t IH]; intros pre n I Hp HL Hn; (destruct n as [|n]; [cbn [length] in Hn; lia|]); cbn [scan_remove].
  - rewrite N.eqb_refl. exists s, (pre ++ []). split; [reflexivity|]. split; [exact I|]. rewrite app_nil_r.
    clear - Hp. induction pre as [|x t IH]; [reflexivity|]. cbn [map filter] in *. rewrite (proj2 (N.eqb_neq (who s x) o)) by (intros E; apply Hp; now left).
    cbn [negb]. f_equal. apply IH. intros H. apply Hp. now right.
  - assert (a0 : a <> 0) by (intros ->; apply (o_null _ _ I), in_or_app; right; now left).
    rewrite (proj2 (N.eqb_neq a 0)) by assumption.
    rewrite (proj2 (is_taken_spec s a)) by (apply (o_taken _ _ I), in_or_app; right; now left). cbn [negb].
    destruct HL as [_ HL]. pose proof (o_nodup _ _ I) as ND. pose proof (o_who _ _ I) as WD. rewrite map_app in WD. cbn [map] in WD.
    destruct (N.eqb_spec (who s a) o) as [E|E].
    + assert (FE : filter (fun x => negb (x =? o)) (map (who s) (pre ++ a :: t)) = map (who s) (pre ++ t)).
      { rewrite !map_app, filter_app. cbn [map filter]. rewrite E, N.eqb_refl. cbn [negb]. rewrite E in WD. apply NoDup_remove_2 in WD. rewrite in_app_iff in WD.
        assert (FI : forall l, ~ In o l -> filter (fun x => negb (x =? o)) l = l).
        { clear. induction l as [|x l IH]; intros H; [reflexivity|]. cbn [filter]. rewrite (proj2 (N.eqb_neq x o)) by (intros ->; apply H; now left). cbn [negb]. f_equal. apply IH. intros Hi. apply H. now right. }
        f_equal; apply FI; tauto. }
      assert (at' : ~ In a (pre ++ t)) by (apply NoDup_remove_2 in ND; exact ND).
      assert (com : forall s', who s' = who s -> taken s' = give_back a (taken s) -> linked (nxt s') (head s') (pre ++ t) -> oinv s' (pre ++ t)).
      { intros s' Ew Et El. constructor; rewrite ?Ew, ?Et; auto.
        - now apply NoDup_remove_1 in ND.
        - intros H. apply (o_null _ _ I). apply in_app_iff in H. apply in_app_iff. cbn [In]. tauto.
        - intros x. rewrite give_back_in, (o_taken _ _ I), !in_app_iff. cbn [In]. split.
          + intros [[H|[H|H]] Hx]; auto. congruence.
          + intros H. split; [tauto|]. intros ->. apply at', in_app_iff. exact H.
        - assert (NDT : NoDup (taken s)).
          { apply (NoDup_incl_NoDup ND); [rewrite (o_len _ _ I); lia|]. intros x Hx. apply (o_taken _ _ I), Hx. }
          assert (ia : In a (taken s)) by (apply (o_taken _ _ I), in_or_app; right; now left).
          pose proof (o_len _ _ I) as QL. rewrite app_length in QL. cbn [length] in QL. rewrite app_length.
          assert (GL : forall l, NoDup l -> In a l -> S (length (give_back a l)) = length l).
          { clear. induction l as [|x l IH]; intros N H; [destruct H|]. apply NoDup_cons_iff in N. destruct N as [N1 N2]. unfold give_back. cbn [filter]. fold (give_back a l).
            destruct (N.eqb_spec x a) as [->|Ex]; cbn [negb length].
            - f_equal. f_equal. unfold give_back. clear - N1. induction l as [|y l IH]; [reflexivity|]. cbn [filter]. rewrite (proj2 (N.eqb_neq y a)) by (intros ->; apply N1; now left).
              cbn [negb]. f_equal. apply IH. intros H. apply N1. now right.
            - f_equal. apply IH; auto. destruct H; [congruence|auto]. }
          specialize (GL _ NDT ia). lia.
        - rewrite map_app. now apply NoDup_remove_1 in WD.
        - intros H. apply (o_obs _ _ I). rewrite map_app in *. apply in_app_iff in H. apply in_app_iff. cbn [map In]. tauto. }
      assert (LO := o_link _ _ I).
      destruct pre as [|x pre].
      * cbn [last app]. rewrite N.eqb_refl. eexists _, t. split; [reflexivity|]. split; [|symmetry; exact FE].
        apply com; [reflexivity|reflexivity|]. cbn [head nxt app]. destruct LO as [_ LO]. exact LO.
      * assert (l0 : last (x :: pre) 0 <> 0).
        { intros Ez. apply (o_null _ _ I). rewrite <- Ez. apply in_or_app. left. clear. revert x. induction pre as [|z t IH]; intros y; [now left|]. right. apply IH. }
        rewrite (proj2 (N.eqb_neq _ _) l0). eexists _, ((x :: pre) ++ t). split; [reflexivity|]. split; [|symmetry; exact FE].
        apply com; [reflexivity|reflexivity|]. cbn [head nxt]. clear - LO ND.
        revert LO ND. generalize (head s). revert x. induction pre as [|y pre IH]; intros x p LO ND.
        -- cbn [app last] in *. destruct LO as (-> & Ex & LO). split; [reflexivity|]. rewrite at_put_same. eapply linked_ext; [|exact LO].
           intros z Hz. apply at_put_other. intros ->. apply NoDup_cons_iff in ND. destruct ND as [ND _]. apply ND. now right.
        -- change (last (x :: y :: pre) 0) with (last (y :: pre) 0). destruct LO as (-> & LO). split; [reflexivity|].
           rewrite at_put_other.
           ++ apply IH; [exact LO|]. now apply NoDup_cons_iff in ND.
           ++ intros Ez. apply NoDup_cons_iff in ND. destruct ND as [ND _]. apply ND. rewrite Ez. change (In (last (y :: pre) 0) ((y :: pre) ++ a :: t)). apply in_or_app. left.
              clear. revert y. induction pre as [|z t IH]; intros y; [now left|]. right. apply IH.
    + replace (nxt s a) with (match t with [] => 0 | x :: _ => x end) by (destruct t as [|b t]; [symmetry; exact HL|destruct HL as [Q _]; auto]).
      assert (I' : oinv s ((pre ++ [a]) ++ t)) by (rewrite <- app_assoc; exact I).
      destruct (IH (pre ++ [a]) n I') as (s' & e' & E1 & E2 & E3).
      * rewrite map_app, in_app_iff. cbn [map In]. intros [H|[H|[]]]; auto.
      * destruct t as [|b t]; [reflexivity|]. destruct HL as [Q HL]. split; auto.
      * cbn [length] in Hn. lia.
      * exists s', e'. split; [|split; [exact E2|rewrite E3, <- app_assoc; reflexivity]]. rewrite <- E1. f_equal.
        clear. induction pre as [|x pre IH]; [reflexivity|]. cbn [app]. destruct (pre ++ [a]) eqn:X; [now destruct pre|]. cbn [last] in *. exact IH.
Qed.

Lemma remove_spec s e o : oinv s e -> o <> 0 ->
  exists s' e', remove_observer s o = Done s' /\ oinv s' e' /\ map (who s') e' = filter (fun x => negb (x =? o)) (map (who s) e).
Proof.
  intros I Ho. unfold remove_observer. rewrite (proj2 (N.eqb_neq o 0)) by assumption.
  assert (Eh : head s = match e with [] => 0 | x :: _ => x end).
  { pose proof (o_link _ _ I) as L. destruct e as [|x t]; [exact L|]. now destruct L. }
  rewrite Eh. apply (scan_remove_spec s o e [] _); auto.
  - rewrite <- Eh. apply I.
  - rewrite (o_len _ _ I). lia.
Qed.

Lemma notify_spec s h : forall e n p, linked (nxt s) p e -> (forall x, In x e -> In x (taken s)) -> ~ In 0 e -> (length e < n)%nat ->
  walk_notify n s h p = Some (filter h (map (who s) e)).
Proof.
  induction e as [|a t IH]; intros n p HL HT H0 Hn; (destruct n as [|n]; [cbn [length] in Hn; lia|]); cbn [walk_notify linked] in *.
  - subst p. reflexivity.
  - destruct HL as [-> HL]. rewrite (proj2 (N.eqb_neq a 0)) by (intros ->; apply H0; now left).
    rewrite (proj2 (is_taken_spec s a)) by (apply HT; now left). cbn [negb].
    rewrite (IH n _ HL); [reflexivity|intros x Hx; apply HT; now right|intros Hi; apply H0; now right|cbn [length] in Hn; lia].
Qed.

Lemma release_spec : forall e n s, linked (nxt s) (head s) e -> (forall x, In x (taken s) <-> In x e) -> NoDup e -> ~ In 0 e -> (length e < n)%nat ->
  exists s', release n s = Some s' /\ taken s' = [] /\ head s' = 0.
Proof.
  induction e as [|a t IH]; intros n s HL HT ND H0 Hn; (destruct n as [|n]; [cbn [length] in Hn; lia|]); cbn [release linked] in *.
  - rewrite HL. cbn. exists s. repeat split; auto. destruct (taken s) as [|x l]; [reflexivity|]. exfalso. apply (HT x). now left.
  - destruct HL as [Eh HL]. rewrite Eh. rewrite (proj2 (N.eqb_neq a 0)) by (intros ->; apply H0; now left).
    rewrite (proj2 (is_taken_spec s a)) by (apply HT; now left). cbn [negb]. apply NoDup_cons_iff in ND. destruct ND as [N1 N2].
    apply IH; cbn [nxt head taken]; auto; [|intros Hi; apply H0; now right|cbn [length] in Hn; lia].
    intros x. rewrite give_back_in, HT. cbn [In]. split; [intros [[H|H] Hx]; congruence || auto|]. intros H. split; auto. intros ->. auto.
Qed.

Lemma order_snoc h c : fold_left order_step (h ++ [c]) [] = order_step (fold_left order_step h []) c.
Proof. now rewrite fold_left_app. Qed.

Lemma init_oinv : oinv obs_init [].
Proof. constructor; cbn; auto using NoDup_nil; tauto. Qed.

Lemma step_oinv s e c s' : oinv s e -> ostep s c s' ->
  exists e', oinv s' e' /\ map (who s') e' = order_step (map (who s) e) c.
Proof.
  intros I H. destruct H.
  - destruct (N.eq_dec o 0) as [->|Ho]; [discriminate|]. destruct (add_spec s e a o I H H0 Ho) as (s2 & e2 & E1 & E2 & E3).
    assert (s' = s2) by congruence. subst s2. exists e2. split; [exact E2|]. rewrite E3. cbn [order_step]. rewrite (proj2 (N.eqb_neq o 0)) by assumption. reflexivity.
  - exists e. split; [exact I|]. reflexivity.
  - exists e. split; [exact I|]. cbn [order_step]. now rewrite orb_true_r.
  - destruct (N.eq_dec o 0) as [->|Ho]; [discriminate|]. destruct (remove_spec s e o I Ho) as (s2 & e2 & E1 & E2 & E3).
    assert (s' = s2) by congruence. subst s2. exists e2. auto.
  - exists e. split; [exact I|]. cbn [order_step]. pose proof (o_obs _ _ I) as Z. clear - Z. induction (map (who s) e) as [|x l IH]; [reflexivity|].
    cbn [filter]. rewrite (proj2 (N.eqb_neq x 0)) by (intros ->; apply Z; now left). cbn [negb]. f_equal. apply IH. intros H. apply Z. now right.
Qed.

Lemma runs_oinv h s : oruns h s -> exists e, oinv s e /\ map (who s) e = fold_left order_step h [].
Proof.
  induction 1 as [|h s c s' R (e & I & E) Hs]; [exists []; split; [exact init_oinv|reflexivity]|].
  destruct (step_oinv s e c s' I Hs) as (e' & I' & E'). exists e'. split; [exact I'|]. rewrite order_snoc, E', E. reflexivity.
Qed.

Lemma order_registered o : forall h, In o (fold_left order_step h []) <-> registered o (rev h).
Proof.
  induction h as [|c h IH] using rev_ind; [cbn; tauto|]. rewrite order_snoc, rev_app_distr. cbn [rev app]. destruct c as [o' m|o']; cbn [order_step registered].
  - rewrite <- IH. destruct (N.eqb_spec o' 0) as [->|H0]; cbn [orb].
    { split; [auto|]. intros [(-> & H & _)|H]; [congruence|exact H]. }
    destruct m; cbn [negb orb].
    + destruct (existsb (N.eqb o') (fold_left order_step h [])) eqn:E.
      * split; [auto|]. intros [(-> & _)|H]; [|exact H]. apply existsb_exists in E. destruct E as (x & Hx & Ex). apply N.eqb_eq in Ex. now subst.
      * rewrite in_app_iff. cbn [In]. split; [intros [H|[->|[]]]; auto|]. intros [(-> & _)|H]; auto.
    + split; [auto|]. intros [(_ & _ & H)|H]; [discriminate|exact H].
  - rewrite <- IH, filter_In. destruct (N.eqb_spec o o') as [->|H]; cbn [negb]; intuition congruence.
Qed.

Lemma order_nodup : forall h, NoDup (fold_left order_step h []).
Proof.
  induction h as [|c h IH] using rev_ind; [constructor|]. rewrite order_snoc. destruct c as [o m|o]; cbn [order_step].
  - destruct ((o =? 0) || negb m || existsb (N.eqb o) (fold_left order_step h [])) eqn:E; [exact IH|].
    apply orb_false_iff in E. destruct E as [_ E]. rewrite <- (app_nil_r (_ ++ [o])), <- app_assoc. cbn [app].
    apply NoDup_Add with (a := o) (l := fold_left order_step h [] ++ []); [apply Add_app|]. rewrite app_nil_r. split; [exact IH|].
    intros Hi. assert (existsb (N.eqb o) (fold_left order_step h []) = true) by (apply existsb_exists; exists o; split; [exact Hi|apply N.eqb_refl]). congruence.
  - now apply NoDup_filter.
Qed.
