(** The heap is tiled by its free and allocated blocks. *)
From Coq Require Import List NArith Bool Arith Lia Permutation.
From Coq Require Import ZifyBool ZifyNat ZifyN.
From Verif Require Import Base Heap_Model Heap_Spec Heap_Links_Proofs.
Import ListNotations.
Local Open Scope N_scope.

Record blk := Blk { ba : N; bs : N; bf : bool }.

Definition frees (l : list blk) : list N := map ba (filter bf l).
Definition used (l : list blk) : list N := map ba (filter (fun b => negb (bf b)) l).

Lemma frees_app a b : frees (a ++ b) = frees a ++ frees b.
Proof. unfold frees. now rewrite filter_app, map_app. Qed.
Lemma used_app a b : used (a ++ b) = used a ++ used b.
Proof. unfold used. now rewrite filter_app, map_app. Qed.

Lemma frees_in l x : In x (frees l) <-> exists b, In b l /\ ba b = x /\ bf b = true.
Proof.
  unfold frees. rewrite in_map_iff. split.
  - intros (b & E & H). apply filter_In in H. exists b. tauto.
  - intros (b & H1 & E & H2). exists b. split; [exact E|]. apply filter_In. tauto.
Qed.
Lemma used_in l x : In x (used l) <-> exists b, In b l /\ ba b = x /\ bf b = false.
Proof.
  unfold used. rewrite in_map_iff. split.
  - intros (b & E & H). apply filter_In in H. exists b. destruct (bf b); cbn in H; intuition congruence.
  - intros (b & H1 & E & H2). exists b. split; [exact E|]. apply filter_In. rewrite H2. tauto.
Qed.

Lemma frees_split l : forall F1 r F2, frees l = F1 ++ r :: F2 ->
  exists l1 s l2, l = l1 ++ Blk r s true :: l2 /\ frees l1 = F1 /\ frees l2 = F2.
Proof.
  induction l as [|b l IH]; intros F1 r F2 E.
  - destruct F1; discriminate.
  - destruct b as [a s f]. unfold frees in E. cbn [filter bf] in E. destruct f; cbn [map ba] in E.
    + destruct F1 as [|f F1]; cbn [app] in E.
      * injection E as -> E. exists [], s, l. auto.
      * injection E as -> E. destruct (IH F1 r F2 E) as (l1 & s' & l2 & -> & <- & <-).
        exists (Blk f s true :: l1), s', l2. auto.
    + destruct (IH F1 r F2 E) as (l1 & s' & l2 & -> & <- & <-).
      exists (Blk a s false :: l1), s', l2. auto.
Qed.

Section Layout.
  Variable HL : N.
  Hypothesis HL0 : 0 < HL.

  Fixpoint tiles (a : N) (l : list blk) (e : N) : Prop :=
    match l with
    | [] => a = e
    | b :: t => ba b = a /\ tiles (a + HL + bs b) t e
    end.

  Lemma tiles_app l1 : forall a l2 e,
    tiles a (l1 ++ l2) e <-> exists m, tiles a l1 m /\ tiles m l2 e.
  Proof.
    induction l1 as [|b t IH]; intros a l2 e; cbn [app tiles].
    - split; [intros H; exists a; auto|intros (m & -> & H); auto].
    - rewrite IH. split.
      + intros (E & m & H1 & H2). exists m. auto.
      + intros (m & (E & H1) & H2). split; [exact E|]. exists m. auto.
  Qed.

  Lemma tiles_le l : forall a e, tiles a l e -> a + N.of_nat (length l) * HL <= e.
  Proof.
    induction l as [|b t IH]; intros a e H; cbn [tiles length] in *; [lia|].
    destruct H as [_ H]. apply IH in H. lia.
  Qed.

  Lemma tiles_in l : forall a e b, tiles a l e -> In b l -> a <= ba b /\ ba b + HL + bs b <= e.
  Proof.
    induction l as [|c t IH]; intros a e b H Hi; [easy|]. destruct H as [E H]. destruct Hi as [->|Hi].
    - apply tiles_le in H. lia.
    - destruct (IH _ _ _ H Hi). lia.
  Qed.

  Lemma tiles_apart l a e b c : tiles a l e -> In b l -> In c l -> ba b <> ba c ->
    apart (ba b) (HL + bs b) (ba c) (HL + bs c).
  Proof.
    revert a. induction l as [|d t IH]; intros a H Hb Hc Hn; [easy|]. destruct H as [E H]. unfold apart.
    destruct Hb as [->|Hb], Hc as [->|Hc]; try congruence.
    - destruct (tiles_in _ _ _ _ H Hc). lia.
    - destruct (tiles_in _ _ _ _ H Hb). lia.
    - apply (IH _ H Hb Hc Hn).
  Qed.

  Lemma tiles_nodup l : forall a e, tiles a l e -> NoDup (map ba l).
  Proof.
    induction l as [|b t IH]; intros a e H; cbn [map]; constructor.
    - destruct H as [E H]. rewrite in_map_iff. intros (c & Ec & Hc). destruct (tiles_in _ _ _ _ H Hc). lia.
    - destruct H as [_ H]. exact (IH _ _ H).
  Qed.

  Lemma nodup_map_filter l f : NoDup (map ba l) -> NoDup (map ba (filter f l)).
  Proof.
    induction l as [|b t IH]; intros H; [constructor|]. cbn [map] in H. apply NoDup_cons_iff in H. destruct H as [H1 H2].
    cbn [filter]. destruct (f b); [|auto]. cbn [map]. constructor; [|auto].
    rewrite in_map_iff in *. intros (c & E & Hc). apply filter_In in Hc. apply H1. exists c. tauto.
  Qed.

  Lemma tiles_same l a e b c : tiles a l e -> In b l -> In c l -> ba b = ba c -> b = c.
  Proof.
    intros H. apply tiles_nodup in H. revert H. induction l as [|d t IH]; intros H Hb Hc E; [easy|].
    cbn [map] in H. apply NoDup_cons_iff in H. destruct H as [H1 H2].
    destruct Hb as [->|Hb], Hc as [->|Hc]; auto.
    - exfalso. apply H1. rewrite E. now apply in_map.
    - exfalso. apply H1. rewrite <- E. now apply in_map.
  Qed.

  (** No free block ends where another free block starts. *)
  Fixpoint sparse (l : list blk) : Prop :=
    match l with
    | b :: (c :: _) as t => (bf b = false \/ bf c = false) /\ sparse t
    | _ => True
    end.

  Definition headfree (l : list blk) : bool := match l with b :: _ => bf b | [] => false end.
  Fixpoint lastfree (l : list blk) : bool := match l with [] => false | [b] => bf b | _ :: t => lastfree t end.

  Lemma lastfree_snoc l b : lastfree (l ++ [b]) = bf b.
  Proof. induction l as [|c t IH]; [reflexivity|]. cbn [app]. destruct (t ++ [b]) eqn:E; [now destruct t|]. exact IH. Qed.

  Lemma sparse_app l1 : forall l2, sparse (l1 ++ l2) <-> sparse l1 /\ sparse l2 /\ (lastfree l1 = false \/ headfree l2 = false).
  Proof.
    induction l1 as [|b t IH]; intros l2; [cbn; tauto|].
    destruct t as [|c t].
    - cbn [app sparse lastfree]. destruct l2 as [|d l2]; cbn [sparse headfree]; tauto.
    - change ((b :: c :: t) ++ l2) with (b :: (c :: t) ++ l2).
      change (lastfree (b :: c :: t)) with (lastfree (c :: t)).
      assert (E : forall x, sparse (b :: c :: x) <-> (bf b = false \/ bf c = false) /\ sparse (c :: x)) by (intros; reflexivity).
      change (b :: (c :: t) ++ l2) with (b :: c :: (t ++ l2)). rewrite !E. change (c :: t ++ l2) with ((c :: t) ++ l2). rewrite IH. tauto.
  Qed.

  Lemma sparse_single l a e : tiles a l e -> sparse l -> used l = [] -> l = [] \/ exists s, l = [Blk a s true].
  Proof.
    intros HT HS HU. destruct l as [|[x s f] l]; [now left|right]. cbn [tiles ba] in HT. destruct HT as [-> HT].
    destruct f; [|discriminate]. exists s. destruct l as [|[y t g] l]; [reflexivity|].
    destruct g; [|discriminate]. destruct HS as [[H|H] _]; discriminate.
  Qed.
End Layout.
